(** C75: pair-instability prescriptions. *)
From Coq Require Import String List Bool ZArith QArith Qminmax Lqa Lia.
From Verif Require Import PyBase PyNum PyStr MTModel FlowChartModel MergeModel SNModel SNTypeProps RembarProps.
Import ListNotations.
Open Scope string_scope.
Open Scope list_scope.
Open Scope Q_scope.

(** ** Polynomials bounded on an interval *)
Fixpoint eval (l : list Q) (x : Q) : Q := match l with [] => 0 | c :: l => c + x * eval l x end.
Fixpoint padd (a b : list Q) : list Q := match a, b with [], _ => b | _, [] => a | x :: a, y :: b => Qred (x + y) :: padd a b end.
Fixpoint shift (a : Q) (l : list Q) : list Q :=
  match l with [] => [] | c :: l => let s := shift a l in padd [c] (padd (map (fun x => Qred (a * x)) s) (0 :: s)) end.
Lemma eval_padd a b x : eval (padd a b) x == eval a x + eval b x.
Proof. revert b. induction a as [|c a IH]; intros b; cbn [padd eval]; [ring|]. destruct b as [|d b]; cbn [eval]; [ring|]. rewrite IH, Qred_correct. ring. Qed.
Lemma eval_scale a l x : eval (map (fun x => Qred (a * x)) l) x == a * eval l x.
Proof. induction l as [|c l IH]; cbn [map eval]; [ring|]. rewrite IH, Qred_correct. ring. Qed.
Lemma eval_shift a l t : eval (shift a l) t == eval l (a + t).
Proof.
  induction l as [|c l IH]; [reflexivity|]. cbn [shift]. cbv zeta. rewrite !eval_padd, eval_scale. cbn [eval]. rewrite IH. ring.
Qed.
(** A lower bound for 0 <= x <= w. *)
Fixpoint low (w : Q) (l : list Q) : Q := match l with [] => 0 | c :: l => Qred (c + Qmin 0 (w * low w l)) end.
Lemma low_le w l x : 0 <= x <= w -> low w l <= eval l x.
Proof.
  intros X. induction l as [|c l IH]; cbn [low eval]; [lra|]. rewrite Qred_correct. set (L := low w l) in *. set (E := eval l x) in *.
  assert (Qmin 0 (w * L) <= x * E); [|lra]. destruct (Qlt_le_dec L 0) as [N|N].
  - apply Qle_trans with (w * L); [apply Q.le_min_r|]. apply Qle_trans with (x * L).
    + assert (0 <= (w - x) * (- L)) by (apply Qmult_le_0_compat; lra). lra.
    + rewrite (Qmult_comm x L), (Qmult_comm x E). apply Qmult_le_compat_r; lra.
  - apply Qle_trans with 0; [apply Q.le_min_l|]. apply Qmult_le_0_compat; lra.
Qed.
(** [n] pieces of width [w] from [a] on. *)
Fixpoint above_zero (n : nat) (a w : Q) (l : list Q) : bool :=
  match n with O => true | S n => Qle_bool 0 (low w (shift a l)) && above_zero n (Qred (a + w)) w l end.
Lemma above_zero_ok n : forall a w l x, 0 < w -> above_zero n a w l = true -> a <= x -> x <= a + inject_Z (Z.of_nat n) * w -> 0 <= eval l x \/ n = O.
Proof.
  induction n as [|n IH]; intros a w l x W H A B; [right; reflexivity|left]. cbn [above_zero] in H. apply andb_true_iff in H as [H1 H2]. apply Qle_bool_iff in H1.
  destruct (Qlt_le_dec (a + w) x) as [L|L].
  - destruct (IH (Qred (a + w)) w l x W H2) as [R|R]; [rewrite Qred_correct; lra| |exact R|].
    + rewrite Qred_correct. rewrite Nat2Z.inj_succ in B. unfold Z.succ in B. rewrite inject_Z_plus in B. change (inject_Z 1) with 1 in B. lra.
    + subst n. exfalso. change (inject_Z (Z.of_nat 1)) with 1 in B. lra.
  - assert (K := low_le w (shift a l) (x - a) ltac:(lra)). rewrite eval_shift in K. assert (E : a + (x - a) == x) by ring.
    assert (EE : eval l (a + (x - a)) == eval l x). { clear -E. induction l as [|c l IH]; cbn [eval]; [reflexivity|]. rewrite IH, E. reflexivity. }
    rewrite EE in K. lra.
Qed.
Lemma above_zero_spec n a w l x : above_zero (S n) a w l = true -> 0 < w -> a <= x -> x <= a + inject_Z (Z.of_nat (S n)) * w -> 0 <= eval l x.
Proof. intros H W A B. destruct (above_zero_ok (S n) a w l x W H A B) as [R|R]; [exact R|discriminate]. Qed.

(** ** Specification *)
(** The fit of Marchant et al. (2019), coefficients of the powers of the He core mass from 0 on. *)
Definition FIT : list Q := [ - (629429263 # 1000); 115957797 # 1000; - (928332577 # 100000); 421856189 # 1000000; - (119019565 # 10000000); 213499267 # 1000000000;
  - (237814255 # 100000000000); 150408118 # 10000000000000; - (413587235 # 10000000000000000) ].
Lemma marchant_fit h : marchant h == eval FIT h.
Proof. unfold marchant, FIT. cbn [eval]. ring. Qed.
(** The limit set by the He core mass. *)
Definition fitted (h : Q) : Prop := (3199 # 100) <= h <= 6110 # 100.
Definition disrupted (h : Q) : Prop := 6110 # 100 < h /\ h < 12412 # 100.

Section Env.
  Variables (log10 : Q -> Q) (engine : row -> result (pnum * pnum * option string)) (Zsun : Q) (cfg : config).
  Definition limit (now last : row) (Z : pnum) : result pnum := PISN_prescription log10 engine Zsun cfg now last Z.
  (** The remnant of a star: the limit, then the mechanism. *)
  Definition remnant (now last : row) (Z : pnum) : result sn_out := rbind (limit now last Z) (compute_m_rembar engine cfg now last).
End Env.

(** ** The fit *)
Lemma eval_minus l q x : eval (padd l [q]) x == eval l x + q.
Proof. rewrite eval_padd. cbn [eval]. ring. Qed.
Lemma eval_opp l x : eval (map Qopp l) x == - eval l x.
Proof. induction l as [|c l IH]; cbn [map eval]; [ring|]. rewrite IH. ring. Qed.
Lemma fit_low h : fitted h -> 12 <= eval FIT h.
Proof.
  intros [A B]. assert (C : above_zero 30 (3199 # 100) (2911 # 3000) (padd FIT [-(12)]) = true) by (vm_compute; reflexivity).
  assert (D : h <= (3199 # 100) + inject_Z (Z.of_nat 30) * (2911 # 3000)) by (change (inject_Z (Z.of_nat 30)) with 30; lra).
  assert (K := above_zero_spec _ _ _ _ h C ltac:(reflexivity) A D). rewrite eval_minus in K. lra.
Qed.
Lemma fit_high h : fitted h -> eval FIT h <= 444 # 10.
Proof.
  intros [A B]. assert (C : above_zero 70 (3199 # 100) (2911 # 7000) (padd (map Qopp FIT) [444 # 10]) = true) by (vm_compute; reflexivity).
  assert (D : h <= (3199 # 100) + inject_Z (Z.of_nat 70) * (2911 # 7000)) by (change (inject_Z (Z.of_nat 70)) with 70; lra).
  assert (K := above_zero_spec _ _ _ _ h C ltac:(reflexivity) A D). rewrite eval_minus, eval_opp in K. lra.
Qed.
Lemma fit_near h : fitted h -> eval FIT h <= h + (1 # 2).
Proof.
  intros [A B]. destruct (Qlt_le_dec h 36) as [L|L].
  - assert (C : above_zero 50 (3199 # 100) (401 # 5000) (padd (map Qopp FIT) [1 # 2; 1]) = true) by (vm_compute; reflexivity).
    assert (D : h <= (3199 # 100) + inject_Z (Z.of_nat 50) * (401 # 5000)) by (change (inject_Z (Z.of_nat 50)) with 50; lra).
    assert (K := above_zero_spec _ _ _ _ h C ltac:(reflexivity) A D). rewrite eval_padd, eval_opp in K. cbn [eval] in K. lra.
  - assert (C : above_zero 50 36 (251 # 500) (padd (map Qopp FIT) [1 # 2; 1]) = true) by (vm_compute; reflexivity).
    assert (D : h <= 36 + inject_Z (Z.of_nat 50) * (251 # 500)) by (change (inject_Z (Z.of_nat 50)) with 50; lra).
    assert (K := above_zero_spec _ _ _ _ h C ltac:(reflexivity) L D). rewrite eval_padd, eval_opp in K. cbn [eval] in K. lra.
Qed.
Lemma fit_exceeds h : (322 # 10) <= h <= 344 # 10 -> h < eval FIT h.
Proof.
  intros [A B]. assert (C : above_zero 20 (322 # 10) (11 # 100) (padd FIT [- (1 # 100); -(1)]) = true) by (vm_compute; reflexivity).
  assert (D : h <= (322 # 10) + inject_Z (Z.of_nat 20) * (11 # 100)) by (change (inject_Z (Z.of_nat 20)) with 20; lra).
  assert (K := above_zero_spec _ _ _ _ h C ltac:(reflexivity) A D). rewrite eval_padd in K. cbn [eval] in K. lra.
Qed.

(** ** Theorems *)
Definition finite_row (now : row) (c h s : Q) : Prop := r_co now = fin c /\ r_he now = fin h /\ r_mass now = fin s.
(** Marchant et al. (2019): the He core mass alone decides between a fit between 12 and 44.4 solar masses, a disrupted star and no limit. *)
Theorem C75_marchant : forall log10 engine Zsun cfg now last c h s z, PISN cfg = Named "Marchant+19" -> finite_row now c h s ->
  exists P, limit log10 engine Zsun cfg now last (fin z) = Ok P
  /\ (fitted h -> exists p, P = fin p /\ p == eval FIT h /\ 12 <= p <= 444 # 10 /\ p <= h + (1 # 2))
  /\ (disrupted h -> P = Some NaN) /\ (~ fitted h -> ~ disrupted h -> P = fin (total cfg h s)).
Proof.
  intros log10 engine Zsun cfg now last c h s z Pc (Hc & Hh & Hs). unfold limit, PISN_prescription. rewrite Pc, Hc, Hh, Hs. unfold finite, fin at 1 2 3 4. cbn [rbind].
  cbn [String.eqb Ascii.eqb Bool.eqb]. eexists. split; [reflexivity|]. unfold fitted, disrupted, total.
  destruct (qle_spec (3199 # 100) h); destruct (qle_spec h (6110 # 100)); destruct (qlt_spec (6110 # 100) h); destruct (qlt_spec h (12412 # 100)); cbn [andb]; try lra;
    (split; [intros F|split; [intros F|intros F F']]); try lra; try reflexivity; try (exfalso; apply F; lra); try (exfalso; apply F'; lra); try (destruct (conserve_hydrogen_envelope cfg); reflexivity);
    exists (marchant h); (split; [reflexivity|]); rewrite !marchant_fit; (split; [reflexivity|]); (split; [split; [apply fit_low|apply fit_high]|apply fit_near]); exact F.
Qed.
(** A number: the He core mass above it limits the remnant to it, below it there is no limit; a star without a He core is refused. *)
Theorem C75_number : forall log10 engine Zsun cfg now last h Z q, PISN cfg = Limit q -> r_he now = fin h ->
  (q < h -> limit log10 engine Zsun cfg now last Z = Ok (fin q)) /\ (0 < h <= q -> limit log10 engine Zsun cfg now last Z = Ok None)
  /\ (h <= 0 -> h <= q -> limit log10 engine Zsun cfg now last Z = Raise ValueError).
Proof.
  intros log10 engine Zsun cfg now last h Z q Pc Hh. unfold limit, PISN_prescription. rewrite Pc, Hh. change (finite (fin h)) with (@Ok Q h). cbn [rbind].
  destruct (qlt_spec q h); destruct (qlt_spec 0 h); destruct (qle_spec h q); cbn [andb]; repeat split; intros; try lra; reflexivity.
Qed.
Theorem C75_none : forall log10 engine Zsun cfg now last Z, PISN cfg = NoPISN -> limit log10 engine Zsun cfg now last Z = Ok None.
Proof. intros log10 engine Zsun cfg now last Z Pc. unfold limit, PISN_prescription. rewrite Pc. reflexivity. Qed.
Theorem C75_unknown : forall log10 engine Zsun cfg now last c h s z n, PISN cfg = Named n -> n <> "Marchant+19" -> n <> "Hendriks+23" -> finite_row now c h s ->
  limit log10 engine Zsun cfg now last (fin z) = Raise ValueError.
Proof.
  intros log10 engine Zsun cfg now last c h s z n Pc A B (Hc & Hh & Hs). unfold limit, PISN_prescription. rewrite Pc, Hc, Hh, Hs. unfold finite, fin. cbn [rbind].
  apply String.eqb_neq in A, B. rewrite A, B. reflexivity.
Qed.

(** A limit caps the remnant, whatever the mechanism. *)
Lemma capped engine cfg now last c h s p m f st t : collapsing now c h s -> compute_m_rembar engine cfg now last (fin p) = Ok (fin m, f, st, t) -> t <> "WD" -> m <= p.
Proof.
  intros C H N. destruct (rembar_ok _ _ _ _ _ _ _ _ _ _ _ _ C H) as [(X & _)|(t0 & m0 & _ & _ & _ & L)]; [contradiction|].
  unfold limit_by_PISN, fin in L. cbv iota in L. apply rbind_ok in L as (g & G & L). destruct m0 as [n|]; [|discriminate]. unfold p_gt, p_lt in G.
  destruct n as [| | |q]; cbn in G.
  - assert (g = false) by congruence. subst g. discriminate.
  - assert (g = false) by congruence. subst g. discriminate.
  - assert (g = true) by congruence. subst g. assert (p = m) by congruence. subst. lra.
  - change (Ok (nlt (Fin p) (Fin q)) = Ok g) in G. assert (g = nlt (Fin p) (Fin q)) by congruence. subst g. destruct (nlt_spec p q); [assert (p = m) by congruence|assert (q = m) by congruence]; subst; lra.
Qed.
(** The mass gap: without the hydrogen envelope no mechanism leaves a remnant above 44.4 solar masses, unless the He core has at least 124.12. *)
Theorem C75_gap : forall log10 engine Zsun cfg now last c h s z m f st t, PISN cfg = Named "Marchant+19" -> conserve_hydrogen_envelope cfg = false -> collapsing now c h s ->
  remnant log10 engine Zsun cfg now last (fin z) = Ok (fin m, f, st, t) -> t <> "WD" -> (m <= 444 # 10 /\ m <= h + (1 # 2)) \/ ((12412 # 100) <= h /\ m <= h).
Proof.
  intros log10 engine Zsun cfg now last c h s z m f st t Pc Ce C H N. unfold remnant in H. assert (F : finite_row now c h s) by (destruct C as (_ & A); exact A).
  destruct (C75_marchant log10 engine Zsun cfg now last c h s z Pc F) as (P & E & P1 & P2 & P3). rewrite E in H. cbn [rbind] in H. unfold total in P3. rewrite Ce in P3. unfold fitted, disrupted in *.
  destruct (Qlt_le_dec h (3199 # 100)) as [L|L].
  { assert (P = fin h) as -> by (apply P3; lra). assert (K := capped _ _ _ _ _ _ _ _ _ _ _ _ C H N). left; lra. }
  destruct (Qlt_le_dec (6110 # 100) h) as [L1|L1].
  - destruct (Qlt_le_dec h (12412 # 100)) as [L2|L2].
    + exfalso. rewrite (P2 (conj L1 L2)) in H. destruct (rembar_ok _ _ _ _ _ _ _ _ _ _ _ _ C H) as [(X & _)|(t0 & m0 & _ & _ & _ & Y)]; [contradiction|]. cbn in Y. discriminate.
    + assert (P = fin h) as -> by (apply P3; lra). assert (K := capped _ _ _ _ _ _ _ _ _ _ _ _ C H N). right; lra.
  - destruct (P1 (conj L L1)) as (p & -> & _ & [_ U] & V). assert (K := capped _ _ _ _ _ _ _ _ _ _ _ _ C H N). left. lra.
Qed.
(** And a star in the gap leaves nothing. *)
Theorem C75_disrupted : forall log10 engine Zsun cfg now last c h s z m f st t, PISN cfg = Named "Marchant+19" -> collapsing now c h s -> disrupted h ->
  remnant log10 engine Zsun cfg now last (fin z) = Ok (m, f, st, t) -> t <> "WD" -> m = Some NaN /\ t = "PISN".
Proof.
  intros log10 engine Zsun cfg now last c h s z m f st t Pc C D H N. unfold remnant in H. assert (F : finite_row now c h s) by (destruct C as (_ & A); exact A).
  destruct (C75_marchant log10 engine Zsun cfg now last c h s z Pc F) as (P & E & P1 & P2 & P3). rewrite E in H. cbn [rbind] in H. rewrite (P2 D) in H.
  destruct (rembar_ok _ _ _ _ _ _ _ _ _ _ _ _ C H) as [(X & _)|(t0 & m0 & _ & _ & _ & Y)]; [contradiction|]. cbn in Y. split; congruence.
Qed.

(** Hendriks et al. (2023).  The lost mass: *)
Definition ppi_loss (log10 : Q -> Q) (Zsun : Q) (shift extra Z c d : Q) : Prop :=
  (((38 + shift <= c /\ c <= 114 + shift) -> d == ((6 # 10000) * log10 ((if Qlt_le_dec Z (1 # 10000) then 1 # 10000 else Z) * Zsun) + (54 # 10000)) * (c - shift - (348 # 10)) * (c - shift - (348 # 10)) * (c - shift - (348 # 10))
      - (13 # 10000) * (c - shift - (348 # 10)) * (c - shift - (348 # 10)) + extra))
  /\ (c < 38 + shift \/ 114 + shift < c -> d == 0).
Definition or0 (x : option Q) : Q := match x with Some q => q | None => 0 end.
Lemma loss_spec log10 Zsun cfg Z c : ppi_loss log10 Zsun (or0 (PISN_CO_shift cfg)) (or0 (PPI_extra_mass_loss cfg)) Z c (hendriks_loss log10 Zsun cfg Z c).
Proof.
  unfold ppi_loss, hendriks_loss. fold (or0 (PISN_CO_shift cfg)) (or0 (PPI_extra_mass_loss cfg)). generalize (or0 (PISN_CO_shift cfg)) (or0 (PPI_extra_mass_loss cfg)). intros sh ex.
  destruct (qle_spec (38 + sh) c); destruct (qle_spec c (114 + sh)); cbn [andb]; cbv zeta; split; intros G; try lra; try reflexivity.
  destruct (qlt_spec Z (1 # 10000)); destruct (Qlt_le_dec Z (1 # 10000)); try lra; unfold Qpower, Qpower_positive, pow_pos; ring.
Qed.
(** No loss, no limit; otherwise the star is disrupted, or at least 10 solar masses and at most what the loss leaves remain: for every mechanism. *)
Theorem C75_hendriks : forall log10 engine Zsun cfg now last c h s z P, PISN cfg = Named "Hendriks+23" -> collapsing now c h s ->
  limit log10 engine Zsun cfg now last (fin z) = Ok P ->
  exists d, ppi_loss log10 Zsun (or0 (PISN_CO_shift cfg)) (or0 (PPI_extra_mass_loss cfg)) z c d
  /\ (d <= 0 -> P = fin (total cfg h s))
  /\ (0 < d -> P = Some NaN \/ exists p, P = fin p /\ 10 <= p /\ p <= (if conserve_hydrogen_PPI cfg then s else h) - d).
Proof.
  intros log10 engine Zsun cfg now last c h s z P Pc (I & Hc & Hh & Hs) H. exists (hendriks_loss log10 Zsun cfg z c). split; [apply loss_spec|].
  unfold limit, PISN_prescription in H. rewrite Pc, Hc, Hh, Hs in H. unfold finite, fin at 1 2 3 4 in H. cbn [rbind] in H. cbn [String.eqb Ascii.eqb Bool.eqb] in H. cbv zeta in H.
  set (d := hendriks_loss log10 Zsun cfg z c) in *. clearbody d. destruct (qle_spec d 0) as [D|D].
  { split; [|lra]. intros _. unfold total. destruct (conserve_hydrogen_envelope cfg); congruence. }
  split; [lra|]. intros _. set (b := (if conserve_hydrogen_PPI cfg then s else h) - d) in *. clearbody b.
  destruct (qlt_spec b 0); [left; congruence|]. set (c' := if qlt b c then b else c) in *. set (h' := if qlt b h then b else h) in *.
  assert (C' : collapsing (Row (r_state now) (fin b) (fin c') (fin h')) c' h' b) by (repeat split; exact I).
  apply rbind_ok in H as ([[[m f] st] t] & R & H). cbv beta iota in H. apply rbind_ok in H as (g & G & H).
  destruct m as [x|]; [|discriminate]. unfold fin, p_lt in G. destruct x as [| | |q].
  - left. cbn in G. assert (g = false) by congruence. subst g. congruence.
  - left. cbn in G. assert (g = true) by congruence. subst g. congruence.
  - exfalso. destruct (rembar_ok _ _ _ _ _ _ _ _ _ _ _ _ C' R) as [(_ & _ & _ & w & X & _)|(t0 & m0 & _ & _ & _ & L)]; [discriminate|].
    unfold limit_by_PISN, fin in L. cbv iota in L. apply rbind_ok in L as (g' & G' & L). destruct g'; [discriminate|]. assert (m0 = Some PInf) by congruence. subst m0. cbn in G'. discriminate.
  - assert (g = nlt (Fin q) (Fin 10)) by congruence. subst g. destruct (nlt_spec q 10); [left; congruence|]. right. exists q. split; [unfold fin; congruence|]. split; [lra|].
    destruct (String.eqb_spec t "WD") as [T|T]; [|exact (capped _ _ _ _ _ _ _ _ _ _ _ _ C' R T)].
    destruct (rembar_ok _ _ _ _ _ _ _ _ _ _ _ _ C' R) as [(_ & _ & _ & w & X & W)|(t0 & m0 & _ & NT & _ & L)].
    + unfold fin in X. assert (w = q) by congruence. subst w. assert (c' <= b) by (unfold c'; destruct (qlt_spec b c); lra). assert (h' <= b) by (unfold h'; destruct (qlt_spec b h); lra).
      destruct W as [[_ ->]|[(_ & _ & ->)|(_ & _ & _ & ->)]]; lra.
    + exfalso. unfold limit_by_PISN, fin in L. cbv iota in L. apply rbind_ok in L as (g & _ & L). destruct g; [assert (t = "PPISN") by congruence; subst t; discriminate|]. assert (t0 = t) by congruence. congruence.
Qed.

(** ** What does not hold *)
(** The limit of Marchant et al. is not a mass loss: for He cores from 32.2 to 34.4 solar masses it is larger than the core. *)
Theorem C75_loss_refuted : forall log10 engine Zsun cfg now last c h s z, PISN cfg = Named "Marchant+19" -> finite_row now c h s -> (322 # 10) <= h <= 344 # 10 ->
  exists p, limit log10 engine Zsun cfg now last (fin z) = Ok (fin p) /\ h < p.
Proof.
  intros log10 engine Zsun cfg now last c h s z Pc F B. destruct (C75_marchant log10 engine Zsun cfg now last c h s z Pc F) as (P & E & P1 & _). unfold fitted in P1.
  destruct (P1 ltac:(lra)) as (p & -> & X & _). exists p. split; [exact E|]. rewrite X. apply fit_exceeds; exact B.
Qed.
(** With the hydrogen envelope the gap is filled, and a number is no maximum. *)
Definition CFGP (p : pisn) (ce : bool) : config := Config "direct" p None None None ce false (5 # 10) (25 # 10) false false true false.
Theorem C75_gap_refuted : remnant (fun _ => 0) ENGINE0 1 (CFGP (Named "Marchant+19") true) (R0 25 30 80) (R0 25 30 80) (fin 1) = Ok (fin 80, fin 1, None, "CCSN").
Proof. reflexivity. Qed.
Theorem C75_number_refuted : remnant (fun _ => 0) ENGINE0 1 (CFGP (Limit 45) true) (R0 25 30 80) (R0 25 30 80) (fin 1) = Ok (fin 80, fin 1, None, "CCSN").
Proof. reflexivity. Qed.

(** ** Examples *)
Example marchant_example : exists m, remnant (fun _ => 0) ENGINE0 1 (CFGP (Named "Marchant+19") false) (R0 40 50 60) (R0 40 50 60) (fin 1) = Ok (fin m, fin 1, None, "PPISN")
  /\ (442 # 10) < m /\ m < 444 # 10.
Proof. eexists. split; [vm_compute; reflexivity|]. split; vm_compute; reflexivity. Qed.
Example disrupted_example : remnant (fun _ => 0) ENGINE0 1 (CFGP (Named "Marchant+19") false) (R0 60 80 90) (R0 60 80 90) (fin 1) = Ok (Some NaN, fin 1, None, "PISN") /\ disrupted 80.
Proof. split; [reflexivity|split; reflexivity]. Qed.
Example hendriks_example : exists p, limit (fun _ => -(2)) ENGINE0 1 (CFGP (Named "Hendriks+23") false) (R0 44 50 60) (R0 44 50 60) (fin 1) = Ok (fin p) /\ 40 < p /\ p < 50.
Proof. eexists. split; [vm_compute; reflexivity|]. split; vm_compute; reflexivity. Qed.
Example number_example : limit (fun _ => 0) ENGINE0 1 (CFGP (Limit 45) false) (R0 40 50 60) (R0 40 50 60) (fin 1) = Ok (fin 45).
Proof. reflexivity. Qed.

Print Assumptions C75_marchant.
Print Assumptions C75_number.
Print Assumptions C75_none.
Print Assumptions C75_unknown.
Print Assumptions C75_gap.
Print Assumptions C75_disrupted.
Print Assumptions C75_hendriks.
Print Assumptions C75_loss_refuted.
Print Assumptions C75_gap_refuted.
Print Assumptions C75_number_refuted.
