(** Proofs about interp1d. *)
From Coq Require Import String List QArith Bool Lia Permutation Lqa.
From Verif Require Import PyBase InterpModel InterpSpec.
Import ListNotations.
Open Scope string_scope.
Open Scope nat_scope.
Open Scope list_scope.

Lemma qlt_true : forall a b, qlt a b = true <-> (a < b)%Q.
Proof.
  intros. unfold qlt. rewrite negb_true_iff. split.
  - intro H. apply Qnot_le_lt. intro C. apply Qle_bool_iff in C. congruence.
  - intro H. destruct (Qle_bool b a) eqn:E; [|reflexivity]. apply Qle_bool_iff in E. lra.
Qed.
Lemma qlt_false : forall a b, qlt a b = false <-> (b <= a)%Q.
Proof.
  intros. unfold qlt. rewrite negb_false_iff, Qle_bool_iff. reflexivity.
Qed.

Fixpoint strict (l : list (Q * Q)) : Prop :=
  match l with [] => True | n :: l' => (forall m, In m l' -> (fst n < fst m)%Q) /\ strict l' end.

(** ** Preparation of the nodes *)
Lemma rising_strict : forall l, rising (map fst l) = true -> strict l.
Proof.
  induction l as [|n l IH]; intro H; [exact I|]. destruct l as [|m r].
  - split; [intros ? []|exact I].
  - change (qlt (fst n) (fst m) && rising (map fst (m :: r)) = true) in H. apply andb_true_iff in H. destruct H as [H1 H2].
    specialize (IH H2). split; [|exact IH]. apply qlt_true in H1. intros k [<- |K]; [exact H1|].
    destruct IH as [IH _]. specialize (IH k K). lra.
Qed.
Lemma falling_strict : forall l, falling (map fst l) = true -> strict (rev l).
Proof.
  assert (forall l n, strict l -> (forall m, In m l -> (fst m < fst n)%Q) -> strict (l ++ [n])) as SN.
  { induction l as [|m l IH]; intros n S F; [split; [intros ? []|exact I]|]. cbn [app strict] in *. split.
    - intros k K. apply in_app_iff in K. destruct K as [K|[<- |[]]]; [apply S; exact K|]. apply F. left. reflexivity.
    - apply IH; [tauto|]. intros; apply F; right; assumption. }
  intro l. enough (falling (map fst l) = true -> strict (rev l) /\ match l with [] => True | n :: _ => forall m, In m l -> (fst m <= fst n)%Q end) by tauto.
  induction l as [|n l IH]; intro H; [split; exact I|].
  destruct l as [|m r].
  - split; [split; [intros ? []|exact I]|]. intros k [<- |[]]. lra.
  - change (qlt (fst m) (fst n) && falling (map fst (m :: r)) = true) in H. apply andb_true_iff in H. destruct H as [H1 H2].
    destruct (IH H2) as [IH1 IH2]. apply qlt_true in H1. split.
    + change (rev (n :: m :: r)) with (rev (m :: r) ++ [n]). apply SN; [exact IH1|]. intros k K. apply in_rev in K. specialize (IH2 k K). lra.
    + intros k [<- |K]; [lra|]. specialize (IH2 k K). lra.
Qed.

Lemma insert_perm : forall n l, Permutation (n :: l) (insert_node n l).
Proof.
  intros n. induction l as [|m l IH]; [apply Permutation_refl|]. cbn [insert_node]. destruct (Qle_bool (fst n) (fst m)); [apply Permutation_refl|].
  eapply Permutation_trans; [apply perm_swap|]. apply perm_skip. exact IH.
Qed.
Lemma sort_perm : forall l, Permutation l (sort_nodes l).
Proof.
  induction l as [|n l IH]; [apply Permutation_refl|]. unfold sort_nodes in *. cbn [fold_right].
  eapply Permutation_trans; [apply perm_skip; exact IH|]. apply insert_perm.
Qed.
Lemma insert_strict : forall n l, strict l -> (forall m, In m l -> ~ (fst n == fst m)%Q) -> strict (insert_node n l).
Proof.
  intros n. induction l as [|m l IH]; intros S F; [split; [intros ? []|exact I]|]. cbn [insert_node strict] in *.
  destruct S as [S1 S2]. destruct (Qle_bool (fst n) (fst m)) eqn:E.
  - apply Qle_bool_iff in E. split; [|split; assumption].
    assert (fst n < fst m)%Q as L by (assert (~ fst n == fst m)%Q by (apply F; left; reflexivity); apply Qnot_le_lt; intro C; apply H; lra).
    intros k [<- |K]; [exact L|]. specialize (S1 k K). lra.
  - split; [|apply IH; [exact S2|]; intros; apply F; right; assumption].
    intros k K. apply (Permutation_in _ (Permutation_sym (insert_perm n l))) in K. destruct K as [<- |K]; [|apply S1; exact K].
    apply Qnot_le_lt. intro C. apply Qle_bool_iff in C. congruence.
Qed.
Lemma sort_strict : forall l, distinct_x l -> strict (sort_nodes l).
Proof.
  induction l as [|n l IH]; intro D; [exact I|]. inversion D as [|? ? D1 D2]; subst. unfold sort_nodes. cbn [fold_right]. apply insert_strict.
  - apply IH. exact D2.
  - intros m M. apply (Permutation_in _ (Permutation_sym (sort_perm l))) in M. rewrite Forall_forall in D1. apply D1. exact M.
Qed.

(** ** Evaluation on strictly sorted nodes *)
Lemma locate_node : forall l n, strict l -> In n l -> forall q, (q == fst n)%Q -> (locate q l == snd n)%Q.
Proof.
  induction l as [|[a ya] l IH]; intros n S I q E; [destruct I|]. destruct l as [|[b yb] r].
  - destruct I as [<- |[]]. reflexivity.
  - destruct S as [S1 S2]. cbn [locate]. destruct I as [<- |I].
    + cbn [fst snd] in *. assert (a < b)%Q as AB by (apply (S1 (b, yb)); left; reflexivity).
      assert (qlt q b = true) as -> by (apply qlt_true; lra). rewrite E. field. lra.
    + assert (qlt q b = false) as ->.
      { apply qlt_false. destruct I as [<- |I]; [cbn [fst] in E; lra|]. destruct S2 as [S2 _]. specialize (S2 n I). cbn [fst] in S2. lra. }
      apply IH; assumption.
Qed.

Lemma locate_between : forall l x0 y0 n0 q, strict l -> hd_error l = Some (x0, y0) -> In n0 l -> (x0 <= q)%Q -> (q <= fst n0)%Q -> 2 <= length l ->
  exists m n, neighbours l m n /\ (fst m <= q <= fst n)%Q /\ (locate q l == line m n q)%Q.
Proof.
  induction l as [|[a ya] l IH]; intros x0 y0 n0 q S H IN LQ QU L; [discriminate|].
  assert (a = x0) by (cbn in H; congruence). subst x0. clear H. destruct l as [|[b yb] r]; [cbn in L; lia|].
  destruct S as [S1 S2]. assert (a < b)%Q as AB by (apply (S1 (b, yb)); left; reflexivity).
  assert (forall k, In k ((a, ya) :: (b, yb) :: r) -> (fst k <= a \/ b <= fst k)%Q) as NB.
  { intros k [<- |[<- |K]]; cbn [fst]; [left; lra | right; lra |]. right. destruct S2 as [S2 _]. specialize (S2 k K). cbn [fst] in S2. lra. }
  assert (neighbours ((a, ya) :: (b, yb) :: r) (a, ya) (b, yb)) as N0.
  { split; [left; reflexivity|]. split; [right; left; reflexivity|]. split; [exact AB | exact NB]. }
  cbn [locate]. destruct (qlt q b) eqn:QB.
  - apply qlt_true in QB. exists (a, ya), (b, yb). split; [exact N0|]. cbn [fst]. split; [lra|]. unfold line. cbn [fst snd]. field. lra.
  - apply qlt_false in QB. destruct r as [|[c yc] r].
    + assert (q <= b)%Q as QB' by (destruct IN as [<- |[<- |[]]]; cbn [fst] in QU; lra). exists (a, ya), (b, yb).
      split; [exact N0|]. cbn [fst]. split; [lra|]. unfold line. cbn [fst snd locate]. assert (q == b)%Q as -> by lra. field. lra.
    + assert (exists n1, In n1 ((b, yb) :: (c, yc) :: r) /\ (q <= fst n1)%Q) as (n1 & I1 & Q1).
      { destruct IN as [<- |IN]; [|exists n0; split; assumption]. exfalso. cbn [fst] in QU. lra. }
      destruct (IH b yb n1 q S2 eq_refl I1 QB Q1 ltac:(cbn; lia)) as (m & n & (M1 & M2 & M3 & M4) & MQ & E).
      exists m, n. split; [|split; [exact MQ | exact E]]. split; [right; exact M1|]. split; [right; exact M2|]. split; [exact M3|].
      intros k [<- |K]; [|apply M4; exact K]. left. cbn [fst]. specialize (S1 m M1). cbn [fst] in S1. lra.
Qed.

Lemma combine_rev : forall (A B : Type) (x : list A) (y : list B), length x = length y -> combine (rev x) (rev y) = rev (combine x y).
Proof.
  intros A B. induction x as [|a x IH]; intros [|b y] L; try discriminate; [reflexivity|]. cbn [rev combine].
  assert (length x = length y) as L' by (cbn in L; congruence). rewrite <- IH by exact L'.
  assert (forall (p : list A) (r : list B) u v, length p = length r -> combine (p ++ [u]) (r ++ [v]) = combine p r ++ [(u, v)]) as CA.
  { clear. induction p as [|s p IH]; intros [|t r] u v L; try discriminate; [reflexivity|]. cbn [app combine]. rewrite IH; [reflexivity | cbn in L; congruence]. }
  apply CA. rewrite !rev_length. exact L'.
Qed.
Lemma map_fst_combine : forall (A B : Type) (x : list A) (y : list B), length x = length y -> map fst (combine x y) = x.
Proof. intros A B. induction x as [|a x IH]; intros [|b y] L; try discriminate; [reflexivity|]. cbn [combine map fst]. rewrite IH; [reflexivity | cbn in L; congruence]. Qed.
Lemma combine_split_map : forall (A B : Type) (l : list (A * B)), combine (map fst l) (map snd l) = l.
Proof. intros. induction l as [|[a b] l IH]; [reflexivity|]. cbn [map fst snd combine]. rewrite IH. reflexivity. Qed.

Definition fill_of (fv : fill) : option Q * option Q * bool :=
  match fv with
  | NoFill | BadFill => (None, None, false)
  | Extrapolate => (None, None, true)
  | Both v => (Some v, Some v, false)
  | Sides a b => (Some a, Some b, false)
  end.

(** What the constructor makes of distinct nodes. *)
Lemma construct_nodes : forall x y fv left right, length x = length y -> x <> [] -> distinct_x (combine x y) -> fv <> BadFill ->
  exists l, Permutation (combine x y) l /\ strict l /\
    construct "linear" x y fv left right =
    Ok (Interp (map fst l) (map snd l)
          (match left with Some v => Some v | None => fst (fst (fill_of fv)) end)
          (match right with Some v => Some v | None => snd (fst (fill_of fv)) end) (snd (fill_of fv))).
Proof.
  intros x y fv left right L NE D FV.
  assert (exists l, Permutation (combine x y) l /\ strict l /\
            (if rising x then Ok (x, y) else if falling x then Ok (rev x, rev y)
             else if length y <? length x then Raise IndexError
             else let s := sort_nodes (combine x y) in Ok (map fst s, map snd s)) = Ok (map fst l, map snd l)) as (l & P & S & E).
  { assert (map fst (combine x y) = x) as MF by (apply map_fst_combine; exact L).
    assert (map snd (combine x y) = y) as MS.
    { clear -L. revert y L. induction x as [|a x IH]; intros [|b y] L; try discriminate; [reflexivity|]. cbn [combine map snd]. rewrite IH; [reflexivity | cbn in L; congruence]. }
    destruct (rising x) eqn:R.
    - exists (combine x y). split; [apply Permutation_refl|]. split; [apply rising_strict; rewrite MF; exact R|]. rewrite MF, MS. reflexivity.
    - destruct (falling x) eqn:F.
      + exists (rev (combine x y)). split; [apply Permutation_rev|]. split; [apply falling_strict; rewrite MF; exact F|].
        rewrite !map_rev, MF, MS. reflexivity.
      + assert (length y <? length x = false) as -> by (apply Nat.ltb_ge; lia).
        exists (sort_nodes (combine x y)). split; [apply sort_perm|]. split; [apply sort_strict; exact D|]. reflexivity. }
  exists l. split; [exact P|]. split; [exact S|]. unfold construct. replace (String.eqb "linear" "linear") with true by reflexivity. cbn [negb].
  cbv zeta in E. rewrite E. cbn [rbind].
  destruct x as [|x0 x]; [contradiction|]. destruct y as [|y0 y]; [discriminate|].
  assert (In (x0, y0) l) as I0 by (apply (Permutation_in _ P); left; reflexivity).
  assert (forall below above ext,
            match call (Interp (map fst l) (map snd l) below above ext) x0 with
            | Ok v => Qeq_bool v y0 = true | Raise _ => False end) as CK.
  { intros below above ext. unfold call. cbn [i_x i_y i_below i_above i_extrapolate]. rewrite !map_length, Nat.eqb_refl. cbn [negb].
    rewrite combine_split_map.
    assert (locate x0 l == y0)%Q as LN by (apply (locate_node l (x0, y0) S I0); reflexivity).
    apply Qeq_bool_iff in LN.
    destruct l as [|[a ya] l']; [destruct I0|]. destruct (rev ((a, ya) :: l')) as [|[b yb] l''] eqn:ER.
    - apply (f_equal (@length _)) in ER. rewrite rev_length in ER. discriminate.
    - assert (In (b, yb) ((a, ya) :: l')) as IB by (apply in_rev; rewrite ER; left; reflexivity).
      assert (qlt x0 a = false) as ->.
      { apply qlt_false. destruct I0 as [I0|I0]; [assert (a = x0) as -> by congruence; lra|]. destruct S as [S _]. specialize (S _ I0). cbn [fst] in S. lra. }
      assert (qlt b x0 = false) as ->; [|exact LN].
      apply qlt_false. 
      assert (forall m, In m ((a, ya) :: l') -> (fst m <= b)%Q) as UB.
      { assert ((a, ya) :: l' = rev l'' ++ [(b, yb)]) as EQ by (rewrite <- (rev_involutive ((a, ya) :: l')), ER; reflexivity).
        rewrite EQ in *. clear -S. induction (rev l'') as [|k ks IH]; intros m M.
        - destruct M as [<- |[]]. cbn. lra.
        - cbn [app] in *. destruct S as [S1 S2]. destruct M as [<- |M]; [|apply IH; assumption].
          apply Qlt_le_weak. apply (S1 (b, yb)). apply in_or_app. right. left. reflexivity. }
      apply (UB (x0, y0) I0). }
  destruct fv; cbn [rbind fill_of fst snd]; try contradiction;
    (match goal with |- rbind (call ?f x0) _ = _ => specialize (CK (i_below f) (i_above f) (i_extrapolate f)); cbn [i_below i_above i_extrapolate] in CK;
       destruct (call f x0) as [vv|ee]; [|contradiction]; cbn [rbind]; rewrite CK; reflexivity end).
Qed.

(** First and last of strictly sorted nodes. *)
Lemma strict_ends : forall l, strict l -> l <> [] -> exists first last, 
  hd_error l = Some first /\ hd_error (rev l) = Some last /\ lowest l first /\ highest l last.
Proof.
  intros l S NE. destruct l as [|f l']; [contradiction|]. exists f.
  destruct (rev (f :: l')) as [|z r] eqn:ER.
  - apply (f_equal (@length _)) in ER. rewrite rev_length in ER. discriminate.
  - exists z. split; [reflexivity|]. split; [reflexivity|].
    assert (f :: l' = rev r ++ [z]) as EQ by (rewrite <- (rev_involutive (f :: l')), ER; reflexivity).
    split.
    + split; [left; reflexivity|]. intros k [<- |K]; [lra|]. destruct S as [S _]. specialize (S k K). lra.
    + split; [apply in_rev; rewrite ER; left; reflexivity|]. rewrite EQ in *. clear -S. induction (rev r) as [|k ks IH]; intros m M.
      * destruct M as [<- |[]]. cbn. lra.
      * cbn [app] in *. destruct S as [S1 S2]. destruct M as [<- |M]; [|apply IH; assumption].
        apply Qlt_le_weak. apply (S1 z). apply in_or_app. right. left. reflexivity.
Qed.

Lemma strict_distinct_in : forall l m n, strict l -> In m l -> In n l -> (fst m == fst n)%Q -> m = n.
Proof.
  induction l as [|k l IH]; intros m n S0 M N E; [destruct M|]. destruct S0 as [S1 S2].
  destruct M as [<- |M], N as [<- |N]; [reflexivity| | |apply IH; assumption].
  - specialize (S1 n N). lra.
  - specialize (S1 m M). lra.
Qed.

Lemma strict_snoc : forall l a b, strict (l ++ [a; b]) -> (fst a < fst b)%Q /\ forall k, In k l -> (fst k < fst a)%Q.
Proof.
  induction l as [|k l IH]; intros a b S.
  - split; [|intros ? []]. cbn [app strict] in S. apply S. left. reflexivity.
  - cbn [app strict] in S. destruct S as [S1 S2]. destruct (IH a b S2) as [A B]. split; [exact A|].
    intros m [<- |M]; [|apply B; exact M]. apply S1. apply in_or_app. right. left. reflexivity.
Qed.
