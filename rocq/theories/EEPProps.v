(** C170 and C171: equivalent evolutionary phases (EEPs) of a track. *)
From Coq Require Import String Bool List Arith QArith Qabs Lia Lqa.
From Verif Require Import PyBase EEPModel FromRunProofs.
Import ListNotations.
Open Scope nat_scope.
Open Scope list_scope.
Open Scope string_scope.

(** ** Specification *)
(** The first row from lo on for which P holds, if any *)
Definition First (P : row -> Prop) (lo : nat) (t : track) (o : option nat) : Prop :=
  match o with
  | Some i => lo <= i /\ (exists r, nth_error t i = Some r /\ P r) /\ forall j r, lo <= j < i -> nth_error t j = Some r -> ~ P r
  | None => forall j r, lo <= j -> nth_error t j = Some r -> ~ P r
  end.
(** The first row from lo on at which val is largest among those for which P holds and val is above start; 0 if there is none *)
Definition Largest (P : row -> Prop) (val : row -> Q) (start : Q) (lo : nat) (t : track) (i : nat) : Prop :=
  (i = 0 /\ (forall j r, lo <= j -> nth_error t j = Some r -> P r -> (val r <= start)%Q)) \/
  (lo <= i /\ exists s, nth_error t i = Some s /\ P s /\ (start < val s)%Q /\
    (forall j r, lo <= j -> nth_error t j = Some r -> P r -> (val r <= val s)%Q /\ (j < i -> (val r < val s)%Q))).

(** ** Loops *)
Lemma lt_iff : forall a b, lt a b = true <-> (a < b)%Q.
Proof.
  intros a b. unfold lt. rewrite negb_true_iff. split; intro H.
  - apply Qnot_le_lt. intro X. apply Qle_bool_iff in X. congruence.
  - apply not_true_iff_false. intro X. apply Qle_bool_iff in X. lra.
Qed.
Lemma gt_iff : forall a b, gt a b = true <-> (b < a)%Q.
Proof. intros a b. apply lt_iff. Qed.
Lemma first_spec : forall (P : row -> bool) (Q : row -> Prop), (forall r, P r = true <-> Q r) -> forall t k,
  match first P k t with
  | Some i => k <= i /\ (exists r, nth_error t (i - k) = Some r /\ Q r) /\ forall j r, j < i - k -> nth_error t j = Some r -> ~ Q r
  | None => forall j r, nth_error t j = Some r -> ~ Q r
  end.
Proof.
  intros P Q H t. induction t as [|r t IH]; intro k; cbn [first].
  - intros [|j] r E; discriminate.
  - destruct (P r) eqn:E.
    + split; [lia|]. split; [exists r; rewrite Nat.sub_diag; split; [reflexivity|apply H, E]|]. intros j r' L. lia.
    + assert (N : ~ Q r) by (intro X; apply H in X; congruence). specialize (IH (S k)). destruct (first P (S k) t) as [i|].
      * destruct IH as (A & (r' & B & C) & D). split; [lia|]. replace (i - k) with (S (i - S k)) by lia. split; [exists r'; auto|].
        intros [|j] x L X; cbn in X; [assert (x = r) by congruence; subst; exact N|]. apply (D j x); [lia|exact X].
      * intros [|j] x X; cbn in X; [assert (x = r) by congruence; subst; exact N|]. exact (IH j x X).
Qed.
Lemma nth_skip : forall A (l : list A) g j, nth_error (skipn g l) j = nth_error l (g + j).
Proof. intros A l g. revert l. induction g as [|g IH]; intros l j; [reflexivity|]. destruct l; [destruct j; reflexivity|]. apply IH. Qed.
Lemma first_from_spec : forall (P : row -> bool) (Q : row -> Prop), (forall r, P r = true <-> Q r) -> forall g t, First Q g t (first_from P g t).
Proof.
  intros P Q H g t. unfold first_from. pose proof (first_spec P Q H (skipn g t) g) as S. destruct (first P g (skipn g t)) as [i|]; cbn [First].
  - destruct S as (A & (r & B & C) & D). split; [exact A|]. rewrite nth_skip in B. replace (g + (i - g)) with i in B by lia. split; [eauto|].
    intros j x L X. apply (D (j - g) x); [lia|]. rewrite nth_skip. replace (g + (j - g)) with j by lia. exact X.
  - intros j x L X. apply (S (j - g) x). rewrite nth_skip. replace (g + (j - g)) with j by lia. exact X.
Qed.
(** A loop which keeps the best, for a strict order *)
Section Best.
  Variables (ok : row -> bool) (better : Q -> Q -> bool) (val : row -> Q).
  Hypothesis strict : forall a, better a a = false.
  Hypothesis trans : forall a b c, better a b = true -> better b c = true -> better a c = true.
  Hypothesis cotrans : forall a b c, better a c = true -> better a b = true \/ better b c = true.
  Lemma best_spec : forall t cur idx k, let i := best ok better val cur idx k t in
    (i = idx /\ forall j r, nth_error t j = Some r -> ok r = true -> better (val r) cur = false) \/
    (k <= i /\ exists s, nth_error t (i - k) = Some s /\ ok s = true /\ better (val s) cur = true /\
      (forall j r, nth_error t j = Some r -> ok r = true -> better (val r) (val s) = false /\ (j < i - k -> better (val s) (val r) = true))).
  Proof using strict trans cotrans.
    induction t as [|r t IH]; intros cur idx k; cbn [best].
    - left. split; [reflexivity|]. intros [|j] x X; discriminate.
    - destruct (ok r && better (val r) cur) eqn:E.
      + apply andb_true_iff in E. destruct E as [E1 E2]. specialize (IH (val r) k (S k)). destruct IH as [(I & N)|(L & s & S1 & S2 & S3 & S4)].
        * right. rewrite I. split; [lia|]. exists r. rewrite Nat.sub_diag. repeat split; try assumption; [|lia].
          destruct j as [|j]; cbn in H; [assert (r0 = r) by congruence; subst; apply strict|exact (N j r0 H H0)].
        * right. set (i := best ok better val (val r) k (S k) t) in *. split; [lia|]. exists s. replace (i - k) with (S (i - S k)) by lia. split; [exact S1|]. split; [exact S2|].
          split; [exact (trans _ _ _ S3 E2)|]. intros [|j] x X O; cbn in X.
          -- assert (x = r) by congruence. subst x. split; [|intros _; exact S3]. destruct (better (val r) (val s)) eqn:Q; [|reflexivity]. pose proof (trans _ _ _ Q S3) as T. rewrite strict in T. discriminate.
          -- destruct (S4 j x X O) as [A B]. split; [exact A|]. intro. apply B. lia.
      + specialize (IH cur idx (S k)). destruct IH as [(I & N)|(L & s & S1 & S2 & S3 & S4)].
        * left. split; [exact I|]. intros [|j] x X O; cbn in X; [|exact (N j x X O)]. assert (x = r) by congruence. subst x. rewrite O in E. exact E.
        * right. set (i := best ok better val cur idx (S k) t) in *. split; [lia|]. exists s. replace (i - k) with (S (i - S k)) by lia. split; [exact S1|]. split; [exact S2|]. split; [exact S3|].
          intros [|j] x X O; cbn in X.
          -- assert (x = r) by congruence. subst x. rewrite O in E. cbn in E. split.
             ++ destruct (better (val r) (val s)) eqn:Q; [|reflexivity]. pose proof (trans _ _ _ Q S3). congruence.
             ++ intros _. destruct (cotrans _ (val r) _ S3) as [C|C]; [exact C|congruence].
          -- destruct (S4 j x X O) as [A B]. split; [exact A|]. intro. apply B. lia.
  Qed.
End Best.
Lemma best_gt : forall ok P val start g t, (forall r, ok r = true <-> P r) -> Largest P val start g t (best_from ok gt val start g t).
Proof.
  intros ok P val start g t H. unfold best_from.
  assert (S := best_spec ok gt val).
  assert (A1 : forall a, gt a a = false) by (intro a; apply not_true_iff_false; rewrite gt_iff; lra).
  assert (A2 : forall a b c, gt a b = true -> gt b c = true -> gt a c = true) by (intros a b c; rewrite !gt_iff; lra).
  assert (A3 : forall a b c, gt a c = true -> gt a b = true \/ gt b c = true) by (intros a b c; rewrite !gt_iff; lra).
  specialize (S A1 A2 A3 (skipn g t) start 0 g). cbn zeta in S. set (i := best ok gt val start 0 g (skipn g t)) in *. clearbody i.
  assert (F : forall a b, gt a b = false -> (a <= b)%Q) by (intros a b X; apply Qnot_lt_le; intro Y; apply gt_iff in Y; congruence).
  destruct S as [(I & N)|(L & s & S1 & S2 & S3 & S4)].
  - left. split; [exact I|]. intros j r X Y Z. apply F. apply (N (j - g) r); [rewrite nth_skip; replace (g + (j - g)) with j by lia; exact Y|apply H, Z].
  - right. split; [exact L|]. exists s. rewrite nth_skip in S1. replace (g + (i - g)) with i in S1 by lia. split; [exact S1|]. split; [apply H, S2|]. split; [apply gt_iff, S3|].
    intros j r X Y Z. destruct (S4 (j - g) r) as [A B]; [rewrite nth_skip; replace (g + (j - g)) with j by lia; exact Y|apply H, Z|]. split; [apply F, A|]. intro Q. apply gt_iff, B. lia.
Qed.
Lemma best_lt : forall ok P val start g t, (forall r, ok r = true <-> P r) -> Largest P (fun r => - val r)%Q (- start)%Q g t (best_from ok lt val start g t).
Proof.
  intros ok P val start g t H.
  assert (E : forall t' cur idx k, best ok lt val cur idx k t' = best ok gt (fun r => - val r)%Q (- cur)%Q idx k t').
  { induction t' as [|r t' IH]; intros cur idx k; [reflexivity|]. cbn [best]. replace (gt (- val r) (- cur))%Q with (lt (val r) cur); [destruct (ok r && lt (val r) cur); apply IH|].
    apply eq_true_iff_eq. rewrite lt_iff, gt_iff. lra. }
  unfold best_from. rewrite E. exact (best_gt ok P (fun r => - val r)%Q (- start)%Q g t H).
Qed.

(** ** C170: the primary EEPs *)
Ltac decide_row := intro; rewrite ?andb_true_iff, ?lt_iff, ?gt_iff; tauto.
Theorem C170_phases : forall t p, find_phases t = Ok p -> exists r0, nth_error t 0 = Some r0 /\
  First (fun r => (r "center_h2" < (1 # 100) * r0 "center_h2")%Q) 0 t (prems p) /\
  First (fun r => (1 # 1000 < Qabs (r "center_h1" - r0 "center_h1"))%Q) 0 t (zams p) /\
  First (fun r => (r "center_h1" < 1 # 5)%Q) 0 t (iams p) /\
  First (fun r => (r "center_h1" < 1 # 100000)%Q) 0 t (tams p) /\
  (exists r1 a b, nth_error t (next (tams p)) = Some r1 /\ trgb p = Nat.min a b /\
    Largest (fun r => r1 "center_he4" - (1 # 100) < r "center_he4")%Q (fun r => r "log_LHe") (-99)%Q (next (tams p)) t a /\
    Largest (fun r => r1 "center_he4" - (1 # 100) < r "center_he4")%Q (fun r => - r "log_center_T")%Q (-99)%Q (next (tams p)) t b) /\
  (exists r1 a, nth_error t (trgb p + 1) = Some r1 /\
    Largest (fun r => 9 # 10 < r "center_he4" /\ r1 "center_he4" - (3 # 100) < r "center_he4")%Q (fun r => r "log_LHe") (-99)%Q (trgb p + 1) t a /\
    Largest (fun r => 9 # 10 < r "center_he4" /\ r1 "center_he4" - (3 # 100) < r "center_he4")%Q (fun r => - r "log_center_T")%Q (-99)%Q a t (zacheb p)) /\
  First (fun r => (r "center_he4" < 1 # 1000)%Q) (zacheb p + 1) t (tacheb p) /\
  First (fun r => (r "center_he4" < 1 # 1000000 /\ r "he_core_mass" - r "c_core_mass" < 1 # 10)%Q) (next (tacheb p)) t (tpagb p) /\
  (exists r1 e, nth_error t (next (tpagb p)) = Some r1 /\ nth_error t (List.length t - 1) = Some e /\
    if Qlt_le_dec (e "log_center_T") (r1 "log_center_T") then First (fun r => (8 # 10 < r "c_core_mass" / r "star_mass")%Q) (next (tpagb p)) t (pagb p) else pagb p = None) /\
  First (fun r => (10 < r "center_gamma")%Q) (next (pagb p)) t (wdcs p) /\
  First (fun r => (r "center_h1" < 1 # 1000000 /\ r "center_he4" < 1 # 1000000 /\ r "center_c12" < 1 # 10)%Q) (zacheb p + 1) t (cburn p).
Proof.
  intros t p H. unfold find_phases in H. apply bind_ok in H. destruct H as (g & Hg & H). apply bind_ok in H. destruct H as (z & Hz & H). apply bind_ok in H. destruct H as (pa & Hp & H).
  assert (E : p = Phases (PreMS t) (ZAMS t) (IAMS t) (TAMS t) g z (TACHEB (S z) t) (TPAGB (next (TACHEB (S z) t)) t) pa (WDCS (next pa) t) (CBURN (S z) t)) by congruence.
  subst p. clear H. cbn [prems zams iams tams trgb zacheb tacheb tpagb pagb wdcs cburn].
  assert (R : forall i r, at_row t i = Ok r -> nth_error t i = Some r) by (intros i r; unfold at_row; destruct (nth_error t i); congruence).
  destruct t as [|r0 t0] eqn:T; [unfold TRGB, at_row in Hg; cbn in Hg; discriminate|]. rewrite <- T in *.
  exists r0. split; [subst t; reflexivity|].
  split; [unfold PreMS; subst t; apply first_from_spec; decide_row|].
  split; [unfold ZAMS; subst t; apply first_from_spec; decide_row|].
  split; [apply first_from_spec; decide_row|]. split; [apply first_from_spec; decide_row|]. split.
  { unfold TRGB in Hg. apply bind_ok in Hg. destruct Hg as (r1 & E1 & Hg). apply R in E1.
    match type of Hg with Ok (Nat.min ?a ?b) = Ok _ => exists r1, a, b end. split; [exact E1|]. split; [congruence|].
    split; [apply best_gt; decide_row|]. apply (best_lt _ _ (fun r => r "log_center_T")). decide_row. }
  rewrite !Nat.add_1_r. split.
  { unfold ZACHEB in Hz. apply bind_ok in Hz. destruct Hz as (r1 & E1 & Hz). apply R in E1. cbn zeta in Hz.
    assert (OK : forall r : row, gt (r "center_he4") (if lt (9 # 10) (r1 "center_he4" - (3 # 100)) then r1 "center_he4" - (3 # 100) else 9 # 10)%Q = true <-> (9 # 10 < r "center_he4" /\ r1 "center_he4" - (3 # 100) < r "center_he4")%Q).
    { intro r. rewrite gt_iff. destruct (lt (9 # 10) (r1 "center_he4" - (3 # 100))) eqn:L; [apply lt_iff in L; lra|].
      assert (~ (9 # 10 < r1 "center_he4" - (3 # 100))%Q) by (rewrite <- lt_iff; congruence). lra. }
    match type of Hz with Ok (best_from _ _ _ _ ?i _) = Ok _ => exists r1, i end. split; [exact E1|]. split; [apply best_gt, OK|].
    match type of Hz with Ok ?x = Ok _ => assert (Z : z = x) by congruence end.
    rewrite Z. apply (best_lt _ _ (fun r => r "log_center_T") 99%Q). exact OK. }
  split; [apply first_from_spec; decide_row|]. split; [apply first_from_spec; decide_row|]. split.
  { unfold PAGB in Hp. apply bind_ok in Hp. destruct Hp as (r1 & E1 & Hp). apply bind_ok in Hp. destruct Hp as (e & E2 & Hp). apply R in E1, E2. exists r1, e. split; [exact E1|]. split; [exact E2|].
    destruct (gt (r1 "log_center_T") (e "log_center_T")) eqn:G.
    - apply gt_iff in G. destruct (Qlt_le_dec _ _) as [L|L]; [|lra]. match type of Hp with Ok ?x = Ok _ => assert (Q : pa = x) by congruence end. rewrite Q. apply first_from_spec. decide_row.
    - assert (G' : ~ (e "log_center_T" < r1 "log_center_T")%Q) by (rewrite <- gt_iff; congruence). destruct (Qlt_le_dec _ _) as [L|L]; [lra|congruence]. }
  split; apply first_from_spec; decide_row.
Qed.
(** Order of the phases *)
Lemma First_some : forall P lo t i, First P lo t (Some i) -> lo <= i /\ i < List.length t.
Proof. intros P lo t i (A & (r & B & _) & _). split; [exact A|]. apply nth_error_Some. congruence. Qed.
Lemma Largest_ge : forall P val start lo t i r, Largest P val start lo t i -> nth_error t lo = Some r -> P r -> (start < val r)%Q -> lo <= i.
Proof. intros P val start lo t i r [(I & N)|(L & _)] E Q S; [|exact L]. specialize (N lo r (Nat.le_refl lo) E Q). lra. Qed.
Theorem C170_order : forall t p, find_phases t = Ok p ->
  (forall i, tams p = Some i -> exists k, iams p = Some k /\ k <= i) /\
  (forall r1, nth_error t (next (tams p)) = Some r1 -> (-99 < r1 "log_LHe")%Q -> (r1 "log_center_T" < 99)%Q -> forall i, tams p = Some i -> i < trgb p) /\
  (forall i, tacheb p = Some i -> zacheb p < i) /\ (forall i, cburn p = Some i -> zacheb p < i) /\
  (forall i j, tacheb p = Some i -> tpagb p = Some j -> i < j) /\ (forall i j, tpagb p = Some i -> pagb p = Some j -> i < j) /\ (forall i j, pagb p = Some i -> wdcs p = Some j -> i < j) /\
  (forall k, zacheb p = k -> k <> 0 -> exists r, nth_error t k = Some r /\ (9 # 10 < r "center_he4")%Q).
Proof.
  intros t p H. destruct (C170_phases t p H) as (r0 & _ & _ & _ & IA & TA & (r1 & a & b & R1 & G & La & Lb) & (r2 & c & R2 & Lc & Ld) & TH & TP & (r3 & e & R3 & E & PA) & WD & CB).
  assert (N : forall P lo t i j, First P lo t (Some i) -> lo = S j -> j < i) by (intros P lo t' i j F ->; apply First_some in F; lia).
  repeat split.
  - intros i Ei. rewrite Ei in TA. destruct TA as (_ & (r & X & Y) & _). destruct (iams p) as [k|].
    + exists k. split; [reflexivity|]. destruct (le_lt_dec k i) as [L|L]; [exact L|]. destruct IA as (_ & _ & Z). exfalso. apply (Z i r); [lia|exact X|]. cbn in *. lra.
    + exfalso. apply (IA i r); [lia|exact X|]. cbn in *. lra.
  - intros r1' X L T i Ei. assert (r1' = r1) by congruence. subst r1'.
    assert (A : next (tams p) <= a) by (apply (Largest_ge _ _ _ _ _ _ r1 La R1); cbn; lra). assert (B : next (tams p) <= b) by (apply (Largest_ge _ _ _ _ _ _ r1 Lb R1); cbn; lra).
    rewrite Ei in A, B. cbn in A, B. rewrite G. lia.
  - intros i Ei. rewrite Ei in TH. apply First_some in TH. lia.
  - intros i Ei. rewrite Ei in CB. apply First_some in CB. lia.
  - intros i j Ei Ej. rewrite Ei, Ej in TP. apply (N _ _ _ _ _ TP eq_refl).
  - intros i j Ei Ej. destruct (Qlt_le_dec (e "log_center_T") (r3 "log_center_T")); [|congruence]. rewrite Ei, Ej in PA. apply (N _ _ _ _ _ PA eq_refl).
  - intros i j Ei Ej. rewrite Ei, Ej in WD. apply (N _ _ _ _ _ WD eq_refl).
  - intros k Ek K. destruct Ld as [(Z & _)|(_ & s & S & (S1 & _) & _)]; [congruence|]. exists s. rewrite <- Ek. auto.
Qed.
(** A track which ends where the core runs out of hydrogen has no EEPs at all, whichever are asked for. *)
Theorem C170_ends_refuted : forall log10 cubic names t wanted interval, TAMS t = Some (List.length t - 1) -> t <> [] -> EEP log10 cubic names t wanted interval = Raise IndexError.
Proof.
  intros log10 cubic names t wanted interval H N. unfold EEP, find_phases, TRGB, at_row. rewrite H. cbn [next].
  assert (E : nth_error t (S (List.length t - 1)) = None) by (apply nth_error_None; lia). rewrite E. reflexivity.
Qed.
Print Assumptions C170_phases.
Print Assumptions C170_order.

(** ** C171: the table of EEPs *)
Lemma upd_length : forall A (l : list A) i v, List.length (upd l i v) = List.length l.
Proof. induction l as [|a l IH]; intros [|i] v; cbn; [reflexivity|reflexivity|reflexivity|rewrite IH; reflexivity]. Qed.
Lemma upd_nth : forall A (l : list A) i v j, nth_error (upd l i v) j = if Nat.eqb i j && Nat.ltb j (List.length l) then Some v else nth_error l j.
Proof.
  induction l as [|a l IH]; intros i v j.
  - replace (Nat.ltb j (List.length (@nil A))) with false by reflexivity. rewrite andb_false_r. destruct i; reflexivity.
  - destruct i as [|i]; destruct j as [|j]; try reflexivity. cbn [upd nth_error]. rewrite IH. reflexivity.
Qed.
Lemma writes : forall A (w : list (nat * A)) a pos v, pos < List.length a -> (forall v', In (pos, v') w -> v' = v) -> In (pos, v) w \/ nth_error a pos = Some v ->
  nth_error (fold_left (fun a x => upd a (fst x) (snd x)) w a) pos = Some v.
Proof.
  induction w as [|[i u] w IH]; intros a pos v L F H; cbn [fold_left fst snd]; [destruct H as [[]|H]; exact H|].
  apply IH; [rewrite upd_length; exact L|intros v' I; apply F; right; exact I|]. rewrite upd_nth.
  destruct (Nat.eqb_spec i pos) as [-> |N]; cbn [andb].
  - right. apply Nat.ltb_lt in L. rewrite L. f_equal. apply F. left. reflexivity.
  - destruct H as [[E|H]|H]; [congruence|left; exact H|right; exact H].
Qed.
Lemma fill_length : forall A (w : list (nat * A)) a, List.length (fold_left (fun a x => upd a (fst x) (snd x)) w a) = List.length a.
Proof. induction w as [|x w IH]; intro a; cbn; [reflexivity|]. rewrite IH. apply upd_length. Qed.
Lemma all_ok : forall A B (f : A -> result B) l r, all f l = Ok r -> List.length r = List.length l /\ forall k a, nth_error l k = Some a -> exists b, nth_error r k = Some b /\ f a = Ok b.
Proof.
  induction l as [|x l IH]; intros r H; cbn [all] in H; [assert (r = []) by congruence; subst; split; [reflexivity|intros [|k] a E; discriminate]|].
  apply bind_ok in H. destruct H as (b & Hb & H). apply bind_ok in H. destruct H as (r' & Hr & H). assert (r = b :: r') by congruence. subst r.
  destruct (IH r' Hr) as [L S]. split; [cbn; congruence|]. intros [|k] a E; cbn in E; [exists b; split; [reflexivity|congruence]|exact (S k a E)].
Qed.
Section Table.
  Variables (log10 : Q -> Q) (cubic : list Q -> list Q -> Q -> Q) (names : list string).
  (** The point j of interval between lo and hi *)
  Definition point (m : list Q) (interval lo hi j : nat) (mlo mhi : Q) : Q := (mlo + (Z.of_nat j # 1) * ((mhi - mlo) / (Z.of_nat (interval + 1) # 1)))%Q.
  Definition good (x : list Q) : Prop := 2 <= List.length x /\ forall i a b, nth_error x i = Some a -> nth_error x (S i) = Some b -> (a < b)%Q.
  Lemma pchip_ok : forall x y m v, pchip cubic x y m = Ok v -> v = cubic x y m /\ good x.
  Proof.
    intros x y m v H. unfold pchip in H. destruct (Nat.ltb_spec (List.length x) 2) as [L|L]; [discriminate|]. cbn [orb] in H. destruct (increasing x) eqn:I; [|discriminate]. cbn [negb] in H.
    split; [congruence|]. split; [exact L|]. clear L H. induction x as [|c x IH]; intros i a b A B; [destruct i; discriminate|]. destruct x as [|d x]; [destruct i as [|[|i]]; discriminate|].
    cbn [increasing] in I. apply andb_true_iff in I. destruct I as [I1 I2]. destruct i as [|i]; cbn in A, B.
    - apply lt_iff in I1. assert (c = a) by congruence. assert (d = b) by congruence. subst. exact I1.
    - exact (IH I2 i a b A B).
  Qed.
  Lemma primaries_spec : forall t interval index c w, primaries names t interval c index = Ok w ->
    (forall k i, nth_error index k = Some i -> exists r, nth_error t i = Some r /\ In (c + k * (interval + 1), map r names) w) /\
    (forall pos v, In (pos, v) w -> exists k i r, nth_error index k = Some i /\ nth_error t i = Some r /\ pos = c + k * (interval + 1) /\ v = map r names).
  Proof.
    intros t interval index. induction index as [|i l IH]; intros c w H; cbn [primaries] in H.
    - assert (w = []) by congruence. subst w. split; [intros [|k] i E; discriminate|intros pos v []].
    - apply bind_ok in H. destruct H as (r & Hr & H). apply bind_ok in H. destruct H as (w' & Hw & H). assert (w = (c, cells names r) :: w') by congruence. subst w. clear H.
      assert (R : nth_error t i = Some r) by (unfold at_row in Hr; destruct (nth_error t i); congruence). destruct (IH _ _ Hw) as [A B]. split.
      + intros [|k] i' E; cbn in E.
        * assert (i' = i) by congruence. subst i'. exists r. split; [exact R|]. left. unfold cells. f_equal. lia.
        * destruct (A k i' E) as (r' & R' & I). exists r'. split; [exact R'|]. right. replace (c + S k * (interval + 1)) with (c + (interval + 1) + k * (interval + 1)) by lia. exact I.
      + intros pos v [E|I].
        * exists 0, i, r. repeat split; [exact R| |]; unfold cells in E; [assert (c = pos) by congruence; lia|congruence].
        * destruct (B pos v I) as (k & i' & r' & X & Y & Z & W). exists (S k), i', r'. repeat split; [exact X|exact Y|lia|exact W].
  Qed.
  Lemma secondary_spec : forall t m interval c lo hi w, secondary cubic names t m interval c lo hi = Ok w ->
    exists mlo mhi, nth_error m lo = Some mlo /\ nth_error m hi = Some mhi /\ (0 < interval -> names <> [] -> good (skipn lo (firstn hi m))) /\
    (forall j, 1 <= j <= interval -> In (c + j, map (fun name => cubic (skipn lo (firstn hi m)) (map (fun r : row => r name) (skipn lo (firstn hi t))) (point m interval lo hi j mlo mhi)) names) w) /\
    (forall pos v, In (pos, v) w -> exists j, 1 <= j <= interval /\ pos = c + j /\
      v = map (fun name => cubic (skipn lo (firstn hi m)) (map (fun r : row => r name) (skipn lo (firstn hi t))) (point m interval lo hi j mlo mhi)) names).
  Proof.
    intros t m interval c lo hi w H. unfold secondary in H. apply bind_ok in H. destruct H as (mhi & Hh & H). apply bind_ok in H. destruct H as (mlo & Hl & H). cbn zeta in H.
    assert (E1 : nth_error m hi = Some mhi) by (unfold metric_at in Hh; destruct (nth_error m hi); congruence).
    assert (E2 : nth_error m lo = Some mlo) by (unfold metric_at in Hl; destruct (nth_error m lo); congruence).
    exists mlo, mhi. split; [exact E2|]. split; [exact E1|]. clear Hh Hl. fold (@slice Q) in *.
    destruct (all_ok _ _ _ _ _ H) as [L S].
    assert (V : forall j y, all (fun name => pchip cubic (slice lo hi m) (map (fun r : row => r name) (slice lo hi t)) (mlo + (Z.of_nat j # 1) * ((mhi - mlo) / (Z.of_nat (interval + 1) # 1)))%Q) names = Ok y ->
      y = map (fun name => cubic (skipn lo (firstn hi m)) (map (fun r : row => r name) (skipn lo (firstn hi t))) (point m interval lo hi j mlo mhi)) names /\ (names <> [] -> good (skipn lo (firstn hi m)))).
    { intros j. clear H S L. induction names as [|nm ns IH]; intros y H; cbn [all] in H; [split; [cbn; congruence|congruence]|].
      apply bind_ok in H. destruct H as (b & Hb & H). apply bind_ok in H. destruct H as (r & Hr & H). apply pchip_ok in Hb. destruct Hb as [Hb G]. destruct (IH r Hr) as [Y _].
      split; [|intros _; exact G]. cbn [map]. rewrite <- Y. unfold point. unfold slice in Hb. congruence. }
    split; [|split].
    - intros I N. destruct interval as [|i]; [lia|]. destruct (S 0 1) as (b & _ & B); [reflexivity|]. apply bind_ok in B. destruct B as (y & B & _). apply V in B. apply B, N.
    - intros j J. destruct (S (j - 1) j) as (b & Nb & B).
      { replace (Some j) with (Some (1 + (j - 1))) by (f_equal; lia). rewrite (nth_error_nth' (seq 1 interval) 0) by (rewrite seq_length; lia). f_equal. apply seq_nth. lia. }
      apply bind_ok in B. destruct B as (y & B & Eb). apply V in B. destruct B as [B _]. rewrite <- B. assert (b = (c + j, y)) by congruence. subst b. apply nth_error_In in Nb. exact Nb.
    - intros pos v I. apply In_nth_error in I. destruct I as (k & I).
      assert (K : k < interval) by (rewrite <- (seq_length interval 1), <- L; apply nth_error_Some; congruence).
      destruct (S k (1 + k)) as (b & Nb & B); [rewrite (nth_error_nth' (seq 1 interval) 0) by (rewrite seq_length; lia); f_equal; apply seq_nth; exact K|].
      apply bind_ok in B. destruct B as (y & B & Eb). apply V in B. destruct B as [B _]. exists (1 + k). split; [lia|]. assert (b = (pos, v)) by congruence. subst b. rewrite <- B.
      assert (pos = c + (1 + k) /\ v = y) by (split; congruence). tauto.
  Qed.
  Lemma secondaries_spec : forall t m interval index c w, secondaries cubic names t m interval c index = Ok w ->
    (forall k lo hi, nth_error index k = Some lo -> nth_error index (S k) = Some hi -> exists mlo mhi, nth_error m lo = Some mlo /\ nth_error m hi = Some mhi /\
      (0 < interval -> names <> [] -> good (skipn lo (firstn hi m))) /\
      forall j, 1 <= j <= interval -> In (c + k * (interval + 1) + j, map (fun name => cubic (skipn lo (firstn hi m)) (map (fun r : row => r name) (skipn lo (firstn hi t))) (point m interval lo hi j mlo mhi)) names) w) /\
    (forall pos v, In (pos, v) w -> exists k lo hi mlo mhi j, nth_error index k = Some lo /\ nth_error index (S k) = Some hi /\ nth_error m lo = Some mlo /\ nth_error m hi = Some mhi /\
      1 <= j <= interval /\ pos = c + k * (interval + 1) + j /\
      v = map (fun name => cubic (skipn lo (firstn hi m)) (map (fun r : row => r name) (skipn lo (firstn hi t))) (point m interval lo hi j mlo mhi)) names).
  Proof.
    intros t m interval index. induction index as [|a index IH]; intros c w H; cbn [secondaries] in H.
    - assert (w = []) by congruence. subst w. split; [intros [|k] lo hi E; discriminate|intros pos v []].
    - destruct index as [|b index]; [assert (w = []) by congruence; subst w; split; [intros [|[|k]] lo hi E F; discriminate|intros pos v []]|].
      apply bind_ok in H. destruct H as (w1 & H1 & H). apply bind_ok in H. destruct H as (w2 & H2 & H). assert (w = w1 ++ w2)%list by congruence. subst w. clear H.
      destruct (IH _ _ H2) as [A B]. destruct (secondary_spec _ _ _ _ _ _ _ H1) as (mlo & mhi & E1 & E2 & G & C & D). split.
      + intros [|k] lo hi E F.
        * cbn in E, F. assert (lo = a) by congruence. assert (hi = b) by congruence. subst. exists mlo, mhi. split; [exact E1|]. split; [exact E2|]. split; [exact G|]. intros j J. apply in_or_app. left. rewrite Nat.add_0_r. apply C, J.
        * destruct (A k lo hi E F) as (ml & mh & X1 & X2 & X3 & X4). exists ml, mh. split; [exact X1|]. split; [exact X2|]. split; [exact X3|]. intros j J. apply in_or_app. right.
          replace (c + S k * (interval + 1) + j) with (c + (interval + 1) + k * (interval + 1) + j) by lia. apply X4, J.
      + intros pos v I. apply in_app_or in I. destruct I as [I|I].
        * destruct (D pos v I) as (j & J & P & V). exists 0, a, b, mlo, mhi, j. repeat split; try assumption; try lia. 
        * destruct (B pos v I) as (k & lo & hi & ml & mh & j & X1 & X2 & X3 & X4 & X5 & X6 & X7). exists (S k), lo, hi, ml, mh, j. repeat split; try assumption; try lia.
  Qed.
  (** The table: the primary EEPs every interval + 1 rows with their rows of the track, between them interval points equally spaced in the metric. *)
  Theorem C171_table : forall t wanted interval k eeps, EEP log10 cubic names t wanted interval = Ok (k, eeps) -> exists p, find_phases t = Ok p /\
    let index := eep_index p wanted in let m := metric_function log10 t in
    k = List.length index /\ List.length eeps = k + interval * (k - 1) /\
    (forall a i, nth_error index a = Some i -> exists r, nth_error t i = Some r /\ nth_error eeps (a * (interval + 1)) = Some (map r names)) /\
    (forall a lo hi, nth_error index a = Some lo -> nth_error index (S a) = Some hi -> exists mlo mhi, nth_error m lo = Some mlo /\ nth_error m hi = Some mhi /\
      (0 < interval -> names <> [] -> lo + 2 <= hi) /\
      forall j, 1 <= j <= interval -> nth_error eeps (a * (interval + 1) + j) =
        Some (map (fun name => cubic (skipn lo (firstn hi m)) (map (fun r : row => r name) (skipn lo (firstn hi t))) (mlo + (Z.of_nat j # 1) * ((mhi - mlo) / (Z.of_nat (interval + 1) # 1)))%Q) names)).
  Proof.
    intros t wanted interval k eeps H. unfold EEP in H. apply bind_ok in H. destruct H as (p & Hp & H). exists p. split; [exact Hp|]. cbn zeta in *. set (index := eep_index p wanted) in *.
    destruct (Nat.eqb (List.length index) 0 && negb (Nat.eqb interval 0)) eqn:Z; [discriminate|]. apply bind_ok in H. destruct H as (w & Hw & H). apply bind_ok in H. destruct H as (w' & Hw' & H).
    assert (k = List.length index) by congruence. assert (E : eeps = fill names (List.length index + interval * (List.length index - 1)) (w ++ w')%list) by congruence. clear H. subst k.
    split; [reflexivity|]. assert (L : List.length eeps = List.length index + interval * (List.length index - 1)) by (rewrite E; unfold fill; rewrite fill_length, repeat_length; reflexivity).
    split; [exact L|]. destruct (primaries_spec _ _ _ _ _ Hw) as [A B]. destruct (secondaries_spec _ _ _ _ _ _ Hw') as [C D].
    assert (U : forall a j a' j', j <= interval -> j' <= interval -> a * (interval + 1) + j = a' * (interval + 1) + j' -> a = a' /\ j = j').
    { intros a j a' j' J J' Q. assert (a = a') by nia. subst. split; [reflexivity|lia]. }
    split.
    - intros a i Ei. destruct (A a i Ei) as (r & R & I). exists r. split; [exact R|]. rewrite E. unfold fill. cbn [Nat.add] in I. apply writes.
      + rewrite repeat_length. assert (a < List.length index) by (apply nth_error_Some; congruence). nia.
      + intros v' I'. apply in_app_or in I'. destruct I' as [I'|I'].
        * destruct (B _ _ I') as (a' & i' & r' & X1 & X2 & X3 & X4). destruct (U a 0 a' 0) as [<- _]; [lia|lia|lia|]. assert (i' = i) by congruence. subst i'. assert (r' = r) by congruence. subst. reflexivity.
        * destruct (D _ _ I') as (a' & lo & hi & ml & mh & j & _ & _ & _ & _ & J & X & _). destruct (U a 0 a' j); lia.
      + left. apply in_or_app. left. exact I.
    - intros a lo hi El Eh. destruct (C a lo hi El Eh) as (ml & mh & M1 & M2 & G & F). exists ml, mh. split; [exact M1|]. split; [exact M2|]. split.
      + intros I N. destruct (G I N) as [G1 _]. rewrite skipn_length, firstn_length in G1. lia.
      + intros j J. rewrite E. unfold fill. apply writes.
        * rewrite repeat_length. assert (S a < List.length index) by (apply nth_error_Some; congruence). nia.
        * intros v' I'. apply in_app_or in I'. destruct I' as [I'|I'].
          -- destruct (B _ _ I') as (a' & i' & r' & _ & _ & X & _). destruct (U a j a' 0); lia.
          -- destruct (D _ _ I') as (a' & lo' & hi' & ml' & mh' & j' & X1 & X2 & X3 & X4 & J' & X5 & X6). destruct (U a j a' j') as [<- <-]; [lia|lia|lia|].
             assert (lo' = lo) by congruence. assert (hi' = hi) by congruence. subst lo' hi'. assert (ml' = ml) by congruence. assert (mh' = mh) by congruence. subst ml' mh'. rewrite X6. reflexivity.
        * left. apply in_or_app. right. apply F, J.
  Qed.
  (** The metric never decreases along the track. *)
  Theorem C171_metric : forall t i a b, nth_error (metric_function log10 t) i = Some a -> nth_error (metric_function log10 t) (S i) = Some b ->
    (0 <= a)%Q /\ exists r r', nth_error t i = Some r /\ nth_error t (S i) = Some r' /\
    (b == a + 2 * (r' "log_Teff" - r "log_Teff") ^ 2 + (1 # 8) * (r' "log_L" - r "log_L") ^ 2 + (log10 (r' "star_age") - log10 (r "star_age")) ^ 2)%Q /\ (a <= b)%Q.
  Proof.
    assert (P : forall x, (0 <= x * x)%Q) by (intro x; destruct (Qlt_le_dec x 0); nra).
    assert (M : forall r r', (0 <= term log10 r r')%Q).
    { intros r r'. unfold term, sq. pose proof (P (r' "log_Teff" - r "log_Teff")%Q). pose proof (P (r' "log_L" - r "log_L")%Q). pose proof (P (log10 (r' "star_age") - log10 (r "star_age"))%Q).
      pose proof (P (r' "log_center_Rho" - r "log_center_Rho")%Q). set (u := ((r' "log_Teff" - r "log_Teff") * (r' "log_Teff" - r "log_Teff"))%Q) in *.
      set (v := ((r' "log_L" - r "log_L") * (r' "log_L" - r "log_L"))%Q) in *. set (w := ((log10 (r' "star_age") - log10 (r "star_age")) * (log10 (r' "star_age") - log10 (r "star_age")))%Q) in *.
      set (x := ((r' "log_center_Rho" - r "log_center_Rho") * (r' "log_center_Rho" - r "log_center_Rho"))%Q) in *. clearbody u v w x. lra. }
    assert (G : forall t m r i a b, (0 <= m)%Q -> nth_error (metric_from log10 m r t) i = Some a -> nth_error (metric_from log10 m r t) (S i) = Some b ->
      (0 <= a)%Q /\ exists x y, nth_error (r :: t) i = Some x /\ nth_error (r :: t) (S i) = Some y /\ b = (a + term log10 x y)%Q).
    { induction t as [|r' t IH]; intros m r i a b Hm A B; cbn [metric_from] in A, B; [destruct i as [|[|i]]; discriminate|].
      destruct i as [|i].
      - cbn in A, B. assert (m = a) by congruence. subst a. split; [exact Hm|]. exists r, r'. split; [reflexivity|]. split; [reflexivity|]. destruct t; cbn in B; congruence.
      - cbn in A. change (nth_error (metric_from log10 (m + term log10 r r')%Q r' t) (S i) = Some b) in B.
        assert (Hm' : (0 <= m + term log10 r r')%Q) by (pose proof (M r r'); lra). destruct (IH _ r' i a b Hm' A B) as (X & x & y & E1 & E2 & E3). split; [exact X|]. exists x, y. auto. }
    intros [|r t] i a b A B; [destruct i; discriminate|]. destruct (G t 0%Q r i a b (Qle_refl 0) A B) as (X & x & y & E1 & E2 & E3). split; [exact X|]. exists x, y. split; [exact E1|]. split; [exact E2|].
    split; [|rewrite E3; pose proof (M x y); lra]. rewrite E3. unfold term, sq. ring.
  Qed.
End Table.
Print Assumptions C171_table.
Print Assumptions C171_metric.

(** ** A track, and findings *)
Definition made (h1 he4 t : Q) (LHe Tc : Q) (c12 : Q) : row := fun name =>
  if String.eqb name "center_h1" then h1 else if String.eqb name "center_he4" then he4 else if String.eqb name "center_c12" then c12
  else if String.eqb name "log_LHe" then LHe else if String.eqb name "log_center_T" then Tc else if String.eqb name "star_age" then t
  else if String.eqb name "he_core_mass" then 3%Q else if String.eqb name "c_core_mass" then 1%Q else if String.eqb name "star_mass" then 10%Q else 0%Q.
Definition life : track := map (fun x : Q * Q * Q * Q * Q * Q => let '(a, b, c, d, e, f) := x in made a b c d e f)
  [(7 # 10, 28 # 100, 0, -50, 7, 0); (699 # 1000, 28 # 100, 1, -50, 7, 0); (6 # 10, 38 # 100, 2, -40, 7, 0); (3 # 10, 68 # 100, 3, -30, 7, 0); (1 # 10, 88 # 100, 4, -20, 7, 0); (5 # 100, 93 # 100, 5, -10, 71 # 10, 0);
   (0, 98 # 100, 6, -5, 72 # 10, 0); (0, 98 # 100, 7, 1, 73 # 10, 0); (0, 975 # 1000, 8, 3, 8, 1 # 100); (0, 95 # 100, 9, 4, 81 # 10, 3 # 100); (0, 5 # 10, 10, 4, 82 # 10, 4 # 10); (0, 1 # 10000, 11, 4, 83 # 10, 3 # 10);
   (0, 0, 12, 4, 84 # 10, 2 # 10); (0, 0, 13, 4, 85 # 10, 5 # 100)]%Q.
(** For instance the last ordinate *)
Definition end_of (x y : list Q) (m : Q) : Q := last y 0%Q.
Example C171_case : exists p eeps, find_phases life = Ok p /\ eep_index p ZAMShi = [2; 4; 6; 9; 11; 13] /\ EEP (fun q => q) end_of ["star_age"; "center_h1"] life ZAMShi 3 = Ok (6, eeps) /\ List.length eeps = 21 /\
  nth_error eeps 4 = Some [4; 1 # 10]%Q /\ nth_error eeps 3 = Some [3; 3 # 10]%Q.
Proof. eexists. eexists. repeat split; vm_compute; reflexivity. Qed.
(** Points between two EEPs are found without the second: the last ones lie beyond the last row used, where the cubic is extrapolated. *)
Theorem C171_extrapolates_refuted : exists mlo mhi mlast, let m := metric_function (fun q => q) life in
  nth_error m 4 = Some mlo /\ nth_error m 6 = Some mhi /\ nth_error (skipn 4 (firstn 6 m)) 1 = Some mlast /\ List.length (skipn 4 (firstn 6 m)) = 2 /\
  (mlast < point m 3 4 6 3 mlo mhi)%Q /\ (point m 3 4 6 3 mlo mhi < mhi)%Q.
Proof. eexists. eexists. eexists. cbn zeta. repeat split; vm_compute; reflexivity. Qed.
(** A star whose core never is mostly helium after the giant branch has its start of helium burning in the first row, before the end of the main sequence, and no table. *)
Definition thin : track := map (fun x : Q * Q * Q * Q * Q * Q => let '(a, b, c, d, e, f) := x in made a b c d e f)
  [(7 # 10, 28 # 100, 0, -50, 7, 0); (6 # 10, 38 # 100, 1, -50, 7, 0); (5 # 10, 38 # 100, 2, -40, 7, 0); (1 # 10, 88 # 100, 3, -20, 7, 0); (1 # 20, 89 # 100, 4, -10, 71 # 10, 0); (0, 89 # 100, 5, 1, 73 # 10, 0);
   (0, 89 # 100, 6, 3, 8, 1 # 100); (0, 1 # 10000, 7, 4, 83 # 10, 3 # 10); (0, 0, 8, 4, 84 # 10, 2 # 10); (0, 0, 9, 4, 85 # 10, 5 # 100)]%Q.
Theorem C171_order_refuted : forall cubic, exists p, find_phases thin = Ok p /\ zacheb p = 0 /\ tams p = Some 5 /\ EEP (fun q => q) cubic ["star_age"] thin ZAMShi 10 = Raise ValueError.
Proof. intro cubic. eexists. repeat split; vm_compute; reflexivity. Qed.
Theorem C171_none_refuted : forall log10 cubic, EEP log10 cubic ["star_age"] life ["pre main sequence"] 100 = Raise ValueError.
Proof. reflexivity. Qed.
