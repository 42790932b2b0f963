(** Lemmas about the distribution over metallicity bins. *)
From Coq Require Import String List QArith Bool Lia Lqa Morphisms.
From Verif Require Import PyBase PyList InterpModel InterpProofs SfhModel SfhSpec.
Import ListNotations.
Open Scope nat_scope.
Open Scope list_scope.

(** ** Lists *)
Lemma length_set_at : forall l i v, length (set_at l i v) = length l.
Proof. induction l as [|x l IH]; intros [|i] v; cbn [set_at length]; [reflexivity..|]. rewrite IH. reflexivity. Qed.
Lemma nth_set_at : forall l i v j, i < length l -> nth j (set_at l i v) 0%Q = if j =? i then v else nth j l 0%Q.
Proof.
  induction l as [|x l IH]; intros [|i] v [|j] L; cbn [set_at nth length Nat.eqb] in *; try lia; try reflexivity. apply IH. lia.
Qed.
Lemma length_zero_from : forall l i, length (zero_from l i) = length l.
Proof. intros. unfold zero_from. rewrite app_length, map_length, <- app_length, firstn_skipn. reflexivity. Qed.
Lemma length_zero_before : forall l i, length (zero_before l i) = length l.
Proof. intros. unfold zero_before. rewrite app_length, map_length, <- app_length, firstn_skipn. reflexivity. Qed.
Lemma nth_zeros : forall (l : list Q) j, nth j (map (fun _ => 0%Q) l) 0%Q = 0%Q.
Proof. induction l as [|x l IH]; intros [|j]; cbn [map nth]; try reflexivity. apply IH. Qed.
Lemma nth_zero_from : forall l i j, nth j (zero_from l i) 0%Q = if j <? i then nth j l 0%Q else 0%Q.
Proof.
  intros l i j. unfold zero_from. revert i j. induction l as [|x l IH]; intros [|i] [|j]; cbn [firstn skipn map app nth]; try reflexivity.
  - destruct (S j <? S i); reflexivity.
  - destruct j; reflexivity || apply nth_zeros.
  - rewrite IH. reflexivity.
Qed.
Lemma nth_zero_before : forall l i j, nth j (zero_before l i) 0%Q = if j <? i then 0%Q else nth j l 0%Q.
Proof.
  intros l i j. unfold zero_before. revert i j. induction l as [|x l IH]; intros [|i] [|j]; cbn [firstn skipn map app nth]; try reflexivity.
  - destruct (S j <? S i); reflexivity.
  - rewrite IH. reflexivity.
Qed.

(** ** Ascending bins *)
Lemma rising_lt : forall l, rising l = true -> forall i j, i < j -> j < length l -> (nth i l 0 < nth j l 0)%Q.
Proof.
  intros l R. assert (forall i, S i < length l -> (nth i l 0 < nth (S i) l 0)%Q) as ST.
  { induction l as [|a l IH]; intros i L; [cbn in L; lia|]. destruct l as [|b l]; [cbn in L; lia|].
    cbn [rising] in R. apply andb_true_iff in R. destruct R as [R1 R2]. apply qlt_true in R1.
    destruct i; [exact R1|]. apply (IH R2 i). cbn in *. lia. }
  intros i j IJ L. induction j as [|j IH]; [lia|]. destruct (Nat.eq_dec i j) as [-> |NE]; [apply ST; exact L|].
  specialize (IH ltac:(lia) ltac:(lia)). specialize (ST j L). lra.
Qed.
Lemma searchsorted_spec : forall l z, rising l = true ->
  searchsorted l z <= length l /\
  (forall j, j < searchsorted l z -> (nth j l 0 < z)%Q) /\ (forall j, searchsorted l z <= j -> j < length l -> (z <= nth j l 0)%Q).
Proof.
  induction l as [|a l IH]; intros z R.
  - split; [reflexivity|]. split; [intros j H; cbn in H; lia | intros j _ H; cbn in H; lia].
  - assert (rising l = true) as R2 by (destruct l as [|b l']; [reflexivity | cbn [rising] in R; apply andb_true_iff in R; apply R]).
    destruct (IH z R2) as (H1 & H2 & H3). unfold searchsorted in *. cbn [filter]. destruct (qlt a z) eqn:Q.
    + apply qlt_true in Q. cbn [length]. split; [lia|]. split.
      * intros [|j] J; [exact Q | apply H2; lia].
      * intros [|j] J1 J2; [lia|]. apply H3; lia.
    + apply qlt_false in Q.
      assert (length (filter (fun b => qlt b z) l) = 0) as Z0.
      { destruct (length (filter (fun b => qlt b z) l)) eqn:E; [reflexivity|]. exfalso. specialize (H2 0 ltac:(lia)).
        destruct l as [|b l']; [cbn in E; lia|]. pose proof (rising_lt (a :: b :: l') R 0 1 ltac:(lia) ltac:(cbn; lia)) as LT. cbn [nth] in *. lra. }
      rewrite Z0. split; [lia|]. split; [lia|]. intros [|j] _ J; [exact Q|]. apply H3; [lia | cbn in J; lia].
Qed.

(** ** Shares *)
Definition clamp (L U x : Q) : Q := if Qlt_le_dec x L then L else if Qlt_le_dec U x then U else x.
Lemma share_clamp : forall F L U lo hi, Proper (Qeq ==> Qeq) F -> (L <= U)%Q -> (lo <= hi)%Q ->
  (share F L U lo hi == F (clamp L U hi) - F (clamp L U lo))%Q.
Proof.
  intros F L U lo hi FP LU LH. unfold share, larger, smaller, clamp.
  destruct (Qlt_le_dec lo L), (Qlt_le_dec hi U), (Qlt_le_dec hi L), (Qlt_le_dec U hi), (Qlt_le_dec U lo);
  match goal with
  | |- (if ?c then _ else _) == _ => destruct c
  end;
  try (apply Qplus_comp; [|apply Qopp_comp]; apply FP; lra);
  try (match goal with |- (0 == F ?x - F ?y)%Q => let E := fresh in assert (x == y)%Q as E by lra; first [ring | rewrite E; ring] end);
  try (exfalso; lra).
Qed.

Section Exact.
  Variable F : Q -> Q.
  Hypothesis FP : Proper (Qeq ==> Qeq) F.
  Variable bins : list Q.
  Hypothesis R : rising bins = true.
  Hypothesis L2 : 2 <= length bins.
  Let n := length bins - 1.
  Let b i := nth i bins 0%Q.

  Lemma b_lt : forall i j, i < j -> j <= n -> (b i < b j)%Q.
  Proof using R L2. intros. apply rising_lt; [exact R | assumption | unfold n in *; lia]. Qed.
  Lemma b_le : forall i j, i <= j -> j <= n -> (b i <= b j)%Q.
  Proof using R L2. intros. destruct (Nat.eq_dec i j) as [-> |]; [lra | apply Qlt_le_weak, b_lt; lia]. Qed.

  Lemma length_plain : length (plain F bins) = n.
  Proof using Type. unfold plain. rewrite map_length, seq_length. reflexivity. Qed.
  Lemma nth_plain : forall i, i < n -> nth i (plain F bins) 0%Q = (F (b (S i)) - F (b i))%Q.
  Proof using Type.
    intros i L. unfold plain. apply (nth_error_nth _ _). rewrite nth_map_error, nth_seq_error by exact L. reflexivity.
  Qed.

  (** The fractions before normalisation. *)
  Definition value (zmin zmax : option Q) (i : nat) : Q :=
    (F (clamp (low_limit bins zmin) (high_limit bins zmax) (high_edge bins (high_limit bins zmax) i))
     - F (clamp (low_limit bins zmin) (high_limit bins zmax) (low_edge bins (low_limit bins zmin) i)))%Q.

  Ltac fb := repeat match goal with
    | |- context [nth ?i bins 0%Q] => change (nth i bins 0%Q) with (b i)
    | H : context [nth ?i bins 0%Q] |- _ => change (nth i bins 0%Q) with (b i) in H
    end.
  Ltac cl := unfold clamp, low_edge, high_edge, smaller, larger;
    repeat match goal with
    | |- context [if Qlt_le_dec ?x ?y then _ else _] => destruct (Qlt_le_dec x y)
    | H : context [if Qlt_le_dec ?x ?y then _ else _] |- _ => destruct (Qlt_le_dec x y)
    end.
  Ltac fin := first [ exfalso; lra
                    | apply Qplus_comp; [|apply Qopp_comp]; apply FP; lra
                    | match goal with |- (0 == F ?x - F ?y)%Q => let E := fresh in assert (x == y)%Q as E by lra; first [ring | rewrite E; ring] end ].

  (** Which bins contain the limits. *)
  Definition last_bin (U : Q) (k : nat) : Prop := k < n /\ (b k < U)%Q /\ (k = n - 1 \/ (U <= b (S k))%Q).
  Definition first_bin (L : Q) (k : nat) : Prop := k < n /\ (L <= b (S k))%Q /\ (k = 0 \/ (b k < L)%Q).

  Definition expected (L U : Q) (first last i : nat) : Q :=
    (if i <? first then 0
     else if last <? i then 0
     else F (if i =? last then U else b (S i)) - F (if i =? first then L else b i))%Q.

  Lemma expected_value : forall zmin zmax first last i, i < n ->
    first_bin (low_limit bins zmin) first -> last_bin (high_limit bins zmax) last ->
    (low_limit bins zmin <= high_limit bins zmax)%Q -> (zmin = None -> first = 0) -> (zmax = None -> last = n - 1) ->
    (expected (low_limit bins zmin) (high_limit bins zmax) first last i == value zmin zmax i)%Q.
  Proof using FP R L2.
    intros zmin zmax first last i IN FB LB LU Z0 Z1. unfold value, expected.
    set (L := low_limit bins zmin) in *. set (U := high_limit bins zmax) in *.
    destruct FB as (F1 & F2 & F3), LB as (B1 & B2 & B3).
    assert (b 0 <= b i)%Q as M0 by (apply b_le; lia). assert (b i < b (S i))%Q as M1 by (apply b_lt; lia).
    assert (zmin = None -> L == b 0)%Q as N0 by (intros ->; unfold L, low_limit; reflexivity).
    assert (zmax = None -> U == b n)%Q as N1 by (intros ->; unfold U, high_limit; reflexivity).
    unfold low_edge, high_edge. fold n. fb.
    destruct (Nat.ltb_spec i first) as [IF|IF].
    - assert (b (S i) < L)%Q as X. { destruct F3 as [F3|F3]; [lia|]. assert (b (S i) <= b first)%Q by (apply b_le; lia). lra. }
      replace (S i =? n) with false by (symmetry; apply Nat.eqb_neq; lia).
      destruct (Nat.eqb_spec i 0) as [I0|I0]; cl; fin.
    - destruct (Nat.ltb_spec last i) as [IL|IL].
      + assert (U <= b i)%Q as X. { destruct B3 as [B3|B3]; [lia|]. assert (b (S last) <= b i)%Q by (apply b_le; lia). lra. }
        replace (i =? 0) with false by (symmetry; apply Nat.eqb_neq; lia).
        destruct (Nat.eqb_spec (S i) n) as [I0|I0]; cl; fin.
      + assert (b i < U)%Q as XU by (assert (b i <= b last)%Q by (apply b_le; lia); lra).
        assert (L <= b (S i))%Q as XL by (assert (b (S first) <= b (S i))%Q by (apply b_le; lia); lra).
        assert (i = last -> S i <> n -> U <= b (S i))%Q as YU by (intros -> NE; destruct B3 as [B3|B3]; [lia | exact B3]).
        assert (i = first -> i <> 0 -> (b i < L)%Q) as YL by (intros -> NE; destruct F3 as [F3|F3]; [lia | exact F3]).
        assert (i <> last -> b (S i) < U)%Q as ZU by (intro NE; assert (b (S i) <= b last)%Q by (apply b_le; lia); lra).
        assert (i <> first -> L <= b i)%Q as ZL by (intro NE; assert (b (S first) <= b i)%Q by (apply b_le; lia); lra).
        assert (i <> last -> S i <> n) as W1 by lia. assert (i <> first -> i <> 0) as W2 by lia.
        destruct (Nat.eqb_spec i last) as [E1|E1], (Nat.eqb_spec i first) as [E2|E2];
        destruct (Nat.eqb_spec i 0) as [E3|E3], (Nat.eqb_spec (S i) n) as [E4|E4];
        repeat match goal with
        | H : ?P -> _, K : ?P |- _ => specialize (H K)
        end; try lia; cl; fin.
  Qed.

  (** The two cuts. *)
  Lemma above_spec : forall zmax, match zmax with Some z => (b 0 < z)%Q | None => True end ->
    exists f last, cut_above F bins zmax (plain F bins) = Ok (f, Some last) /\ length f = n /\ last_bin (high_limit bins zmax) last /\
      (zmax = None -> last = n - 1) /\
      (forall i, i < n -> (nth i f 0 == if last <? i then 0 else F (if i =? last then high_limit bins zmax else b (S i)) - F (b i))%Q).
  Proof using FP R L2.
    intros zmax Z. unfold cut_above. fold n. destruct n as [|k] eqn:EN; [unfold n in EN; lia|].
    assert (length (plain F bins) = S k) as LP by (rewrite length_plain; exact EN).
    destruct zmax as [z|].
    - fb. destruct (Qle_bool (b (S k)) z) eqn:Q.
      + apply Qle_bool_iff in Q. eexists. exists k. split; [reflexivity|]. split; [rewrite length_set_at; exact LP|]. split.
        { split; [lia|]. split; [|left; lia]. cbn [high_limit]. assert (b k < b (S k))%Q by (apply b_lt; lia). lra. }
        split; [discriminate|]. intros i I. rewrite nth_set_at by lia. cbn [high_limit]. destruct (Nat.ltb_spec k i); [lia|].
        destruct (Nat.eqb_spec i k) as [-> |NE]; [reflexivity|]. rewrite nth_plain by lia. reflexivity.
      + assert (z < b (S k))%Q as Q'. { apply Qnot_le_lt. intro C. apply Qle_bool_iff in C. congruence. } clear Q.
        destruct (searchsorted_spec bins z R) as (S1 & S2 & S3). destruct (searchsorted bins z) as [|j] eqn:ES.
        { specialize (S3 0 ltac:(lia) ltac:(lia)). fb. lra. }
        assert (b j < z)%Q as BJ by (apply S2; lia).
        assert (j <= k) as JK. { destruct (le_lt_dec j k); [assumption|]. assert (b (S k) <= b j)%Q by (apply b_le; lia). lra. }
        eexists. exists j. split; [reflexivity|]. split; [rewrite length_zero_from, length_set_at; exact LP|]. split.
        { split; [lia|]. split; [exact BJ|]. right. apply S3; [lia | unfold n in EN; lia]. }
        split; [discriminate|]. intros i I. rewrite nth_zero_from, nth_set_at by lia. cbn [high_limit].
        destruct (Nat.ltb_spec i (S j)), (Nat.ltb_spec j i); try lia; [|reflexivity].
        destruct (Nat.eqb_spec i j) as [-> |NE]; [reflexivity|]. rewrite nth_plain by lia. reflexivity.
    - eexists. exists k. split; [reflexivity|]. split; [exact LP|]. cbn [high_limit]. fold n. rewrite EN. fb. split.
      { split; [lia|]. split; [apply b_lt; lia | left; lia]. }
      split; [intros _; lia|]. intros i I. rewrite nth_plain by lia. destruct (Nat.ltb_spec k i); [lia|].
      destruct (Nat.eqb_spec i k) as [-> |NE]; reflexivity.
  Qed.

  Lemma below_spec : forall zmin f, length f = n -> match zmin with Some z => (z <= b n)%Q | None => True end ->
    exists g first, cut_below F bins zmin f = Ok (g, first) /\ length g = n /\ first_bin (low_limit bins zmin) first /\
      (zmin = None -> first = 0) /\
      (forall i, i < n -> (nth i g 0 == if i <? first then 0 else if match zmin with Some _ => i =? first | None => false end
                                      then F (b (S first)) - F (low_limit bins zmin) else nth i f 0)%Q).
  Proof using FP R L2.
    intros zmin f LF Z. unfold cut_below. fold n. destruct n as [|k] eqn:EN; [unfold n in EN; lia|].
    destruct zmin as [z|].
    - fb. destruct (Qle_bool z (b 0)) eqn:Q.
      + apply Qle_bool_iff in Q. eexists. exists 0. split; [reflexivity|]. split; [rewrite length_set_at; exact LF|]. split.
        { split; [lia|]. split; [|left; reflexivity]. cbn [low_limit]. assert (b 0 < b 1)%Q by (apply b_lt; lia). lra. }
        split; [discriminate|]. intros i I. rewrite nth_set_at by lia. cbn [low_limit]. destruct (Nat.ltb_spec i 0); [lia|].
        destruct (Nat.eqb_spec i 0); reflexivity.
      + assert (b 0 < z)%Q as Q'. { apply Qnot_le_lt. intro C. apply Qle_bool_iff in C. congruence. } clear Q.
        destruct (searchsorted_spec bins z R) as (S1 & S2 & S3). destruct (searchsorted bins z) as [|j] eqn:ES.
        { specialize (S3 0 ltac:(lia) ltac:(lia)). fb. lra. }
        cbn [Nat.sub]. rewrite Nat.sub_0_r.
        assert (b j < z)%Q as BJ by (apply S2; lia).
        assert (j <= k) as JK. { destruct (le_lt_dec j k); [assumption|]. assert (b (S k) <= b j)%Q by (apply b_le; lia). lra. }
        destruct (Nat.leb_spec (S k) j); [lia|].
        eexists. exists j. split; [reflexivity|]. split; [rewrite length_set_at, length_zero_before; exact LF|]. split.
        { split; [lia|]. split; [|right; exact BJ]. cbn [low_limit]. apply S3; [lia | unfold n in EN; lia]. }
        split; [discriminate|]. intros i I. rewrite nth_set_at by (rewrite length_zero_before; lia). rewrite nth_zero_before. cbn [low_limit].
        destruct (Nat.eqb_spec i j) as [-> |NE]; [destruct (Nat.ltb_spec j j); [lia | reflexivity]|]. destruct (Nat.ltb_spec i j); reflexivity.
    - exists f, 0. split; [reflexivity|]. split; [exact LF|]. split.
      { split; [lia|]. split; [|left; reflexivity]. cbn [low_limit]. fb. apply b_le; lia. }
      split; [reflexivity|]. intros i I. reflexivity.
  Qed.

  Lemma distribute_values : forall zmin zmax, limits_meet bins zmin zmax ->
    (low_limit bins zmin <= high_limit bins zmax)%Q /\
    exists v, length v = n /\ (forall i, i < n -> (nth i v 0 == value zmin zmax i)%Q) /\
      forall normalise, distribute F bins zmin zmax normalise = Ok (
        if normalise then map (fun x => if Qeq_bool (qsum v) 0 then None else Some (x / qsum v)%Q) v else map Some v).
  Proof using FP R L2.
    intros zmin zmax (M1 & M2 & M3). fold n in M1, M2. fb.
    destruct (above_spec zmax M2) as (f & last & E1 & LF & LB & NZ & VF).
    destruct (below_spec zmin f LF M1) as (g & first & E2 & LG & FB & NZ0 & VG).
    assert (b 0 < b n)%Q as BN by (apply b_lt; unfold n; lia).
    assert (low_limit bins zmin <= high_limit bins zmax)%Q as LU.
    { destruct zmin as [z|], zmax as [y|]; cbn [low_limit high_limit]; fold n; fb; lra. }
    split; [exact LU|]. unfold distribute. rewrite R. cbn [negb]. rewrite E1. cbn [rbind fst snd]. rewrite E2. cbn [rbind fst snd].
    set (v := match zmin with Some _ => _ | None => _ end). exists v.
    assert (first <= last) as FL.
    { destruct (le_lt_dec first last) as [H|H]; [exact H|]. exfalso. destruct FB as (F1 & F2 & [F3|F3]); [lia|]. destruct LB as (B1 & B2 & [B3|B3]); [lia|].
      assert (b (S last) <= b first)%Q by (apply b_le; lia). lra. }
    assert (length v = n /\ forall i, i < n -> (nth i v 0 == expected (low_limit bins zmin) (high_limit bins zmax) first last i)%Q) as [LV VV].
    { assert (first <> last \/ zmin = None \/ zmax = None -> length g = n /\ forall i, i < n -> (nth i g 0 == expected (low_limit bins zmin) (high_limit bins zmax) first last i)%Q) as GEN.
      { intro CASE. split; [exact LG|]. intros i I. rewrite VG by exact I. unfold expected. destruct (Nat.ltb_spec i first) as [IF|IF]; [reflexivity|].
        specialize (VF i I). destruct zmin as [z|].
        - destruct (Nat.eqb_spec i first) as [-> |NE].
          + destruct (Nat.ltb_spec last first); [lia|]. destruct (Nat.eqb_spec first last) as [EQ|NE]; [|reflexivity].
            destruct CASE as [C|[C|C]]; [contradiction | discriminate|]. subst zmax. specialize (NZ eq_refl). 
            cbn [high_limit]. fold n; fb. replace (S first) with n; [reflexivity | lia].
          + rewrite VF. reflexivity.
        - specialize (NZ0 eq_refl). subst first. rewrite VF. destruct (Nat.ltb_spec last i); [reflexivity|]. cbn [low_limit]. fb.
          destruct (Nat.eqb_spec i 0) as [-> |]; reflexivity. }
      subst v. destruct zmin as [z|]; [|apply GEN; auto]. destruct zmax as [y|]; [|apply GEN; auto].
      destruct (Nat.eqb_spec first last) as [EQ|NE]; [|apply GEN; auto]. subst last. clear GEN.
      split; [rewrite length_zero_before, length_zero_from, length_set_at; exact LG|].
      intros i I. rewrite nth_zero_before, nth_zero_from, nth_set_at by (destruct FB as (? & _); lia). unfold expected. cbn [low_limit high_limit].
      destruct (Nat.ltb_spec i first); [reflexivity|]. destruct (Nat.ltb_spec first i), (Nat.ltb_spec i (S first)); try lia; [reflexivity|].
      replace i with first by lia. rewrite Nat.eqb_refl. reflexivity. }
    split; [exact LV|]. split.
    - intros i I. rewrite (VV i I). apply expected_value; assumption.
    - intros [|]; reflexivity.
  Qed.

  (** Telescoping. *)
  Lemma sum_values : forall zmin zmax v, (low_limit bins zmin <= high_limit bins zmax)%Q -> length v = n ->
    (forall i, i < n -> (nth i v 0 == value zmin zmax i)%Q) ->
    (qsum v == F (high_limit bins zmax) - F (low_limit bins zmin))%Q.
  Proof using FP R L2.
    intros zmin zmax v LU LV VV. set (L := low_limit bins zmin) in *. set (U := high_limit bins zmax) in *.
    assert (forall m, m < n -> (qsum (firstn (S m) v) == F (clamp L U (high_edge bins U m)) - F L)%Q) as TEL.
    { assert (F (clamp L U (low_edge bins L 0)) == F L)%Q as E0.
      { apply FP. cbn [low_edge Nat.eqb]. unfold low_edge, Nat.eqb, clamp, smaller. destruct (Qlt_le_dec (nth 0 bins 0%Q) L).
        - destruct (Qlt_le_dec (nth 0 bins 0%Q) L); lra.
        - destruct (Qlt_le_dec L L); [lra|]. destruct (Qlt_le_dec U L); lra. }
      induction m as [|m IH]; intro M.
      - destruct v as [|x v]; [cbn in LV; lia|]. cbn [firstn]. change (x + 0 == F (clamp L U (high_edge bins U 0)) - F L)%Q.
        specialize (VV 0 M). cbn [nth] in VV. rewrite VV. unfold value. fold L U. rewrite E0. ring.
      - assert (qsum (firstn (S (S m)) v) == qsum (firstn (S m) v) + nth (S m) v 0)%Q as ->.
        { assert (forall (l : list Q) j, j < length l -> (qsum (firstn (S j) l) == qsum (firstn j l) + nth j l 0)%Q) as SS.
          { induction l as [|x l IHl]; intros [|j] J; cbn [length] in J; try lia.
            - unfold qsum. cbn [firstn fold_right nth]. ring.
            - specialize (IHl j ltac:(lia)). unfold qsum in *. cbn [firstn fold_right nth] in *. rewrite IHl. ring. }
          apply SS. lia. }
        rewrite IH by lia. rewrite VV by lia. unfold value. fold L U.
        assert (clamp L U (low_edge bins L (S m)) == clamp L U (high_edge bins U m))%Q as EE.
        { unfold low_edge, high_edge. fold n. destruct (Nat.eqb_spec (S m) n); [lia|]. reflexivity. }
        rewrite EE. ring. }
    assert (1 <= n) as N1 by (unfold n; lia). specialize (TEL (n - 1) ltac:(lia)). replace (S (n - 1)) with n in TEL by lia. rewrite <- LV, firstn_all in TEL. rewrite TEL.
    assert (clamp L U (high_edge bins U (length v - 1)) == U)%Q as ->; [|reflexivity].
    unfold high_edge. fold n. rewrite LV. replace (S (n - 1)) with n by lia. rewrite Nat.eqb_refl. fb. cl; lra.
  Qed.
End Exact.
