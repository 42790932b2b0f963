(** C45: one-dimensional interpolation; C55: interpolators of stellar tracks. *)
From Coq Require Import String List QArith Bool Lia Permutation Lqa.
From Verif Require Import PyBase PyList InterpModel InterpSpec InterpProofs.
Import ListNotations.
Open Scope string_scope.
Open Scope nat_scope.
Open Scope list_scope.

(** The value configured for points below or above all nodes. *)
Definition configured (fv : fill) (own : option Q) (left : bool) : option Q :=
  match own with
  | Some v => Some v
  | None => match fv with Both v => Some v | Sides a b => Some (if left then a else b) | _ => None end
  end.

Lemma perm_neighbours : forall l l' m n, Permutation l l' -> neighbours l' m n -> neighbours l m n.
Proof.
  intros l l' m n P (A & B & C & D). pose proof (Permutation_sym P) as P'.
  split; [apply (Permutation_in _ P'); exact A|]. split; [apply (Permutation_in _ P'); exact B|]. split; [exact C|].
  intros k K. apply D. apply (Permutation_in _ P). exact K.
Qed.

(** The value at every point, for nodes in any order. *)
Theorem interp_exact : forall x y fv left right, length x = length y -> x <> [] -> distinct_x (combine x y) -> fv <> BadFill ->
  exists f, construct "linear" x y fv left right = Ok f /\
  forall q, exists w, call f q = Ok w /\
    (forall n, In n (combine x y) -> (q == fst n)%Q -> (w == snd n)%Q) /\
    (forall lo hi, lowest (combine x y) lo -> highest (combine x y) hi -> 2 <= length x -> (fst lo <= q <= fst hi)%Q ->
       exists m n, neighbours (combine x y) m n /\ (fst m <= q <= fst n)%Q /\ (w == line m n q)%Q) /\
    (forall lo, lowest (combine x y) lo -> (q < fst lo)%Q ->
       if match fv with Extrapolate => 2 <=? length x | _ => false end
       then exists n, neighbours (combine x y) lo n /\ (w == line lo n q)%Q
       else w = match configured fv left true with Some v => v | None => snd lo end) /\
    (forall hi, highest (combine x y) hi -> (fst hi < q)%Q ->
       if match fv with Extrapolate => 2 <=? length x | _ => false end
       then exists m, neighbours (combine x y) m hi /\ (w == line m hi q)%Q
       else w = match configured fv right false with Some v => v | None => snd hi end).
Proof.
  intros x y fv left right L NE D FV.
  destruct (construct_nodes x y fv left right L NE D FV) as (l & P & S & E). eexists. split; [exact E|].
  intro q.
  assert (length l = length x) as LL by (rewrite <- (Permutation_length P), combine_length; lia).
  assert (l <> []) as LN by (destruct l; [destruct x; [contradiction | discriminate] | discriminate]).
  destruct (strict_ends l S LN) as (first & last & HF & HL & LO & HI).
  assert (forall m, lowest (combine x y) m -> m = first) as UF.
  { intros m [M1 M2]. apply (strict_distinct_in l); [exact S | apply (Permutation_in _ P); exact M1 | apply LO |].
    destruct LO as [LO1 LO2]. apply (Permutation_in _ (Permutation_sym P)) in LO1. specialize (M2 first LO1).
    apply (Permutation_in _ P) in M1. specialize (LO2 m M1). lra. }
  assert (forall m, highest (combine x y) m -> m = last) as UL.
  { intros m [M1 M2]. apply (strict_distinct_in l); [exact S | apply (Permutation_in _ P); exact M1 | apply HI |].
    destruct HI as [HI1 HI2]. apply (Permutation_in _ (Permutation_sym P)) in HI1. specialize (M2 last HI1).
    apply (Permutation_in _ P) in M1. specialize (HI2 m M1). lra. }
  unfold call. cbn [i_x i_y i_below i_above i_extrapolate]. rewrite !map_length, Nat.eqb_refl. cbn [negb]. rewrite combine_split_map.
  destruct l as [|[x0 y0] l']; [contradiction|]. set (l := (x0, y0) :: l') in *.
  assert ((x0, y0) = first) as EF by (cbn in HF; congruence). 
  destruct (rev l) as [|[xn yn] r] eqn:ER; [discriminate|]. assert ((xn, yn) = last) as EL by (cbn in HL; congruence).
  assert (l = rev r ++ [(xn, yn)]) as EQ by (rewrite <- (rev_involutive l), ER; reflexivity).
  cbn iota. unfold l at 1. cbv iota.
  destruct (qlt q x0) eqn:Q0.
  - apply qlt_true in Q0.
    assert (forall w, (forall n, In n (combine x y) -> (q == fst n)%Q -> (w == snd n)%Q)) as N1.
    { intros w n IN QN. exfalso. apply (Permutation_in _ P) in IN. destruct LO as [_ LO2]. specialize (LO2 n IN). subst first. cbn [fst] in LO2. lra. }
    assert (forall w : Q, forall hi, highest (combine x y) hi -> (fst hi < q)%Q -> False) as N4.
    { intros w hi H1 H2. apply UL in H1. subst hi. destruct HI as [_ HI2]. specialize (HI2 (x0, y0) (or_introl eq_refl)). cbn [fst] in HI2. lra. }
    assert (forall lo, lowest (combine x y) lo -> (fst lo <= q)%Q -> False) as N2.
    { intros lo H1 H2. apply UF in H1. subst lo first. cbn [fst] in H2. lra. }
    destruct fv; cbn [fill_of snd fst]; try contradiction.
    2:{ unfold l. destruct l' as [|[x1 y1] l''].
        - eexists. split; [reflexivity|]. split; [apply N1|]. split; [intros lo hi H1 _ _ [H2 _]; destruct (N2 lo H1 H2)|].
          split; [|intros hi H1 H2; destruct (N4 0%Q hi H1 H2)]. intros lo H1 H2. rewrite <- LL. cbn [length Nat.leb].
          apply UF in H1. subst lo first. cbn [configured snd]. destruct left; reflexivity.
        - eexists. split; [reflexivity|]. split; [apply N1|]. split; [intros lo hi H1 _ _ [H2 _]; destruct (N2 lo H1 H2)|].
          split; [|intros hi H1 H2; destruct (N4 0%Q hi H1 H2)]. intros lo H1 H2. rewrite <- LL. cbn [length Nat.leb].
          exists (x1, y1). apply UF in H1. subst lo first. split; [|unfold line; cbn [fst snd]; reflexivity].
          apply (perm_neighbours _ l _ _ P). unfold l. destruct S as [S1 S2].
          split; [left; reflexivity|]. split; [right; left; reflexivity|]. split; [apply (S1 (x1, y1)); left; reflexivity|].
          intros k [<- |[<- |K]]; [left; cbn; lra | right; cbn; lra | right]. destruct S2 as [S2 _]. specialize (S2 k K). lra. }
    all: eexists; (split; [reflexivity|]); (split; [apply N1|]); (split; [intros lo hi H1 _ _ [H2 _]; destruct (N2 lo H1 H2)|]);
      (split; [|intros hi H1 H2; destruct (N4 0%Q hi H1 H2)]); intros lo H1 H2; apply UF in H1; subst lo first; cbn [configured snd];
      destruct left; reflexivity.
  - apply qlt_false in Q0. destruct (qlt xn q) eqn:QN.
    + apply qlt_true in QN.
      assert (forall w, (forall n, In n (combine x y) -> (q == fst n)%Q -> (w == snd n)%Q)) as N1.
      { intros w n IN QE. exfalso. apply (Permutation_in _ P) in IN. destruct HI as [_ HI2]. specialize (HI2 n IN). subst last. cbn [fst] in HI2. lra. }
      assert (forall hi, highest (combine x y) hi -> (q <= fst hi)%Q -> False) as N2.
      { intros hi H1 H2. apply UL in H1. subst hi last. cbn [fst] in H2. lra. }
      assert (forall lo, lowest (combine x y) lo -> (q < fst lo)%Q -> False) as N3.
      { intros lo H1 H2. apply UF in H1. subst lo first. cbn [fst] in H2. lra. }
      destruct fv; cbn [fill_of snd fst]; try contradiction.
      2:{ destruct r as [|[xm ym] r'].
          - eexists. split; [reflexivity|]. split; [apply N1|]. split; [intros lo hi _ H1 _ [_ H2]; destruct (N2 hi H1 H2)|].
            split; [intros lo H1 H2; destruct (N3 lo H1 H2)|]. intros hi H1 H2.
            assert (length x = 1) as -> by (rewrite <- LL, EQ; reflexivity). cbn [Nat.leb].
            apply UL in H1. subst hi last. cbn [configured snd]. destruct right; reflexivity.
          - eexists. split; [reflexivity|]. split; [apply N1|]. split; [intros lo hi _ H1 _ [_ H2]; destruct (N2 hi H1 H2)|].
            split; [intros lo H1 H2; destruct (N3 lo H1 H2)|]. intros hi H1 H2.
            assert (2 <=? length x = true) as -> by (apply Nat.leb_le; rewrite <- LL, EQ, app_length; cbn [rev]; rewrite app_length; cbn; lia).
            assert (l = rev r' ++ [(xm, ym); (xn, yn)]) as EQ2 by (rewrite EQ; cbn [rev]; rewrite <- app_assoc; reflexivity).
            assert (strict (rev r' ++ [(xm, ym); (xn, yn)])) as S' by (rewrite <- EQ2; exact S).
            destruct (strict_snoc _ _ _ S') as [SA SB]. exists (xm, ym). apply UL in H1. subst hi last. cbn [fst] in SA. split.
            + apply (perm_neighbours _ l _ _ P). rewrite EQ2. split; [apply in_or_app; right; left; reflexivity|].
              split; [apply in_or_app; right; right; left; reflexivity|]. split; [exact SA|].
              intros k K. apply in_app_iff in K. destruct K as [K|[<- |[<- |[]]]]; [left; specialize (SB k K); lra | left; lra | right; lra].
            + unfold line. cbn [fst snd]. field. lra. }
      all: eexists; (split; [reflexivity|]); (split; [apply N1|]); (split; [intros lo hi _ H1 _ [_ H2]; destruct (N2 hi H1 H2)|]);
        (split; [intros lo H1 H2; destruct (N3 lo H1 H2)|]); intros hi H1 H2; apply UL in H1; subst hi last; cbn [configured snd];
        destruct right; reflexivity.
    + apply qlt_false in QN. exists (locate q l). split; [reflexivity|]. split.
      { intros n IN QE. apply (locate_node l n S); [apply (Permutation_in _ P); exact IN | exact QE]. }
      split.
      { intros lo hi _ _ L2 _. destruct (locate_between l x0 y0 (xn, yn) q S eq_refl) as (m & n & A & B & C).
        - rewrite EQ. apply in_or_app. right. left. reflexivity.
        - exact Q0.
        - exact QN.
        - lia.
        - exists m, n. split; [apply (perm_neighbours _ l _ _ P); exact A|]. split; [exact B | exact C]. }
      split.
      { intros lo H1 H2. exfalso. apply UF in H1. subst lo first. cbn [fst] in H2. lra. }
      { intros hi H1 H2. exfalso. apply UL in H1. subst hi last. cbn [fst] in H2. lra. }
Qed.
Print Assumptions interp_exact.

(** A line between two points stays between their ordinates. *)
Lemma line_between : forall m n q, (fst m < fst n)%Q -> (fst m <= q <= fst n)%Q ->
  (snd m <= snd n -> snd m <= line m n q <= snd n)%Q /\ (snd n <= snd m -> snd n <= line m n q <= snd m)%Q.
Proof.
  intros [a ya] [b yb] q AB [L U]. unfold line. cbn [fst snd] in *.
  assert (ya + (yb - ya) / (b - a) * (q - a) == ya + (yb - ya) * ((q - a) / (b - a)))%Q as -> by (field; lra).
  assert (0 <= (q - a) / (b - a) <= 1)%Q as [T0 T1].
  { split; [apply Qle_shift_div_l; lra | apply Qle_shift_div_r; lra]. }
  set (t := ((q - a) / (b - a))%Q) in *. clearbody t. split; intro Y; split; nra.
Qed.

(** Inside the range the value lies between the values of two neighbouring nodes. *)
Theorem interp_bounded : forall x y fv left right f q w lo hi, length x = length y -> 2 <= length x -> distinct_x (combine x y) ->
  construct "linear" x y fv left right = Ok f -> call f q = Ok w ->
  lowest (combine x y) lo -> highest (combine x y) hi -> (fst lo <= q <= fst hi)%Q ->
  exists m n, neighbours (combine x y) m n /\ (fst m <= q <= fst n)%Q /\
    ((snd m <= w <= snd n)%Q \/ (snd n <= w <= snd m)%Q).
Proof.
  intros x y fv left right f q w lo hi L L2 D CO CA LO HI R.
  assert (fv <> BadFill) as FV.
  { intros ->. unfold construct in CO. replace (String.eqb "linear" "linear") with true in CO by reflexivity. cbn [negb] in CO.
    match type of CO with rbind ?r _ = _ => destruct r; [cbn [rbind] in CO|]; discriminate end. }
  destruct (interp_exact x y fv left right L ltac:(intros ->; cbn in L2; lia) D FV) as (f' & CO' & H).
  assert (f' = f) by congruence. subst f'. destruct (H q) as (w' & CA' & _ & H2 & _). assert (w' = w) by congruence. subst w'.
  destruct (H2 lo hi LO HI L2 R) as (m & n & N & B & E). exists m, n. split; [exact N|]. split; [exact B|].
  destruct N as (_ & _ & MN & _). destruct (line_between m n q MN B) as [P1 P2]. rewrite E.
  destruct (Qlt_le_dec (snd n) (snd m)) as [C|C]; [right; apply P2; lra | left; apply P1; exact C].
Qed.
Print Assumptions interp_bounded.

(** Points with the same position get the same value. *)
Lemma locate_eq : forall l q r, (q == r)%Q -> (locate q l == locate r l)%Q.
Proof.
  induction l as [|[a ya] l IH]; intros q r E; [reflexivity|]. destruct l as [|[b yb] l']; [reflexivity|]. cbn [locate].
  destruct (qlt q b) eqn:Q1, (qlt r b) eqn:Q2.
  - rewrite E. reflexivity.
  - apply qlt_true in Q1. apply qlt_false in Q2. lra.
  - apply qlt_false in Q1. apply qlt_true in Q2. lra.
  - apply IH. exact E.
Qed.

(** Non-decreasing nodes give a non-decreasing function within the range. *)
Theorem interp_monotone : forall x y fv left right f q1 q2 w1 w2 lo hi, length x = length y -> 2 <= length x -> distinct_x (combine x y) ->
  (forall m n, In m (combine x y) -> In n (combine x y) -> (fst m <= fst n)%Q -> (snd m <= snd n)%Q) ->
  construct "linear" x y fv left right = Ok f -> call f q1 = Ok w1 -> call f q2 = Ok w2 ->
  lowest (combine x y) lo -> highest (combine x y) hi -> (fst lo <= q1)%Q -> (q1 < q2)%Q -> (q2 <= fst hi)%Q ->
  (w1 <= w2)%Q.
Proof.
  intros x y fv left right f q1 q2 w1 w2 lo hi L L2 D MON CO CA1 CA2 LO HI R1 Q12 R2.
  assert (fv <> BadFill) as FV.
  { intros ->. unfold construct in CO. replace (String.eqb "linear" "linear") with true in CO by reflexivity. cbn [negb] in CO.
    match type of CO with rbind ?r _ = _ => destruct r; [cbn [rbind] in CO|]; discriminate end. }
  destruct (interp_exact x y fv left right L ltac:(intros ->; cbn in L2; lia) D FV) as (f' & CO' & H).
  assert (f' = f) by congruence. subst f'.
  destruct (H q1) as (v1 & C1 & _ & H1 & _). assert (v1 = w1) by congruence. subst v1.
  destruct (H q2) as (v2 & C2 & _ & H2 & _). assert (v2 = w2) by congruence. subst v2.
  destruct (H1 lo hi LO HI L2 ltac:(lra)) as (m1 & n1 & (A1 & A2 & A3 & A4) & B1 & E1).
  destruct (H2 lo hi LO HI L2 ltac:(lra)) as (m2 & n2 & (D1 & D2 & D3 & D4) & B2 & E2).
  rewrite E1, E2.
  destruct (line_between m1 n1 q1 A3 B1) as [P1 _]. specialize (P1 (MON m1 n1 A1 A2 ltac:(lra))).
  destruct (line_between m2 n2 q2 D3 B2) as [P2 _]. specialize (P2 (MON m2 n2 D1 D2 ltac:(lra))).
  destruct (Qlt_le_dec (fst m2) (fst n1)) as [C|C].
  - assert (fst m1 == fst m2 /\ fst n1 == fst n2)%Q as [EM EN].
    { split.
      - destruct (A4 m2 D1) as [X|X]; [|lra]. destruct (D4 m1 A1) as [Y|Y]; lra.
      - destruct (D4 n1 A2) as [X|X]; [lra|]. destruct (A4 n2 D2) as [Y|Y]; lra. }
    assert (forall a b, In a (combine x y) -> In b (combine x y) -> (fst a == fst b)%Q -> a = b) as UN.
    { clear -D. intros a b. induction D as [|k l D1 D2 IH]; intros A B E; [destruct A|]. rewrite Forall_forall in D1.
      destruct A as [<- |A], B as [<- |B]; [reflexivity | | | apply IH; assumption].
      - exfalso. apply (D1 b B). exact E.
      - exfalso. apply (D1 a A). symmetry. exact E. }
    assert (m2 = m1) as -> by (symmetry; apply UN; assumption). assert (n2 = n1) as -> by (symmetry; apply UN; assumption).
    assert (snd m1 <= snd n1)%Q as SL by (apply MON; [assumption|assumption|lra]).
    unfold line. assert (0 <= (snd n1 - snd m1) / (fst n1 - fst m1))%Q as SP by (apply Qle_shift_div_l; lra). nra.
  - specialize (MON n1 m2 A2 D1 C). lra.
Qed.
Print Assumptions interp_monotone.

(** The order in which the nodes are given does not matter. *)
Lemma strict_perm_eq : forall l l', strict l -> strict l' -> Permutation l l' -> l = l'.
Proof.
  induction l as [|n l IH]; intros l' S S' P; [apply Permutation_nil in P; congruence|].
  destruct l' as [|n' l']; [apply Permutation_sym in P; apply Permutation_nil in P; discriminate|].
  assert (n = n') as ->.
  { assert (In n (n' :: l')) as I1 by (apply (Permutation_in _ P); left; reflexivity).
    assert (In n' (n :: l)) as I2 by (apply (Permutation_in _ (Permutation_sym P)); left; reflexivity).
    destruct I1 as [I1|I1]; [congruence|]. destruct I2 as [I2|I2]; [congruence|].
    destruct S as [S _], S' as [S' _]. specialize (S _ I2). specialize (S' _ I1). lra. }
  f_equal. apply IH; [apply S | apply S' | apply Permutation_cons_inv in P; exact P].
Qed.
Theorem interp_order : forall x y x' y' fv left right, length x = length y -> length x' = length y' -> x <> [] ->
  distinct_x (combine x y) -> distinct_x (combine x' y') -> Permutation (combine x y) (combine x' y') -> fv <> BadFill ->
  construct "linear" x y fv left right = construct "linear" x' y' fv left right.
Proof.
  intros x y x' y' fv left right L L' NE D D' P FV.
  assert (x' <> []) as NE'.
  { intros ->. cbn [combine] in P. apply Permutation_sym, Permutation_nil in P. destruct x, y; try discriminate. contradiction. }
  destruct (construct_nodes x y fv left right L NE D FV) as (l & P1 & S1 & ->).
  destruct (construct_nodes x' y' fv left right L' NE' D' FV) as (l' & P2 & S2 & ->).
  assert (l = l') as ->; [|reflexivity]. apply strict_perm_eq; [exact S1 | exact S2|].
  apply (Permutation_trans (Permutation_sym P1)). apply (Permutation_trans P). exact P2.
Qed.
Print Assumptions interp_order.

Example interp_case : exists f, construct "linear" [3; 1; 2]%Q [30; 10; 40]%Q (Sides 7%Q 8%Q) None (Some 9%Q) = Ok f /\
  map (fun q => match call f q with Ok v => Qred v | Raise _ => (-1)%Q end) [0; 1; (3#2); 2; (5#2); 3; 4]%Q = [7; 10; 25; 40; 35; 30; 9]%Q.
Proof. eexists. split; [vm_compute; reflexivity | vm_compute; reflexivity]. Qed.
Example interp_case_distinct : distinct_x (combine [3; 1; 2]%Q [30; 10; 40]%Q).
Proof. repeat constructor; intro C; discriminate C. Qed.
Example interp_case_extrapolate : exists f, construct "linear" [3; 2; 1]%Q [30; 40; 10]%Q Extrapolate (Some 5%Q) None = Ok f /\
  map (fun q => match call f q with Ok v => Qred v | Raise _ => (-1)%Q end) [0; 5]%Q = [-20; 10]%Q.
Proof. eexists. split; [vm_compute; reflexivity | vm_compute; reflexivity]. Qed.

(** Repeated abscissae are accepted (unless the first one is among them): the function then
    jumps, and takes one of the two values at the node. *)
Theorem interp_repeated_refuted : exists f, construct "linear" [1; 2; 2; 3]%Q [0; 10; 20; 30]%Q NoFill None None = Ok f /\
  call f 2 = Ok (((30 - 20) / (3 - 2) * (2 - 2) + 20)%Q) /\ ~ ((30 - 20) / (3 - 2) * (2 - 2) + 20 == 10)%Q.
Proof. eexists. split; [vm_compute; reflexivity|]. split; [reflexivity | intro C; discriminate C]. Qed.
Theorem interp_repeated_first_refused : construct "linear" [2; 2; 3]%Q [0; 10; 20]%Q NoFill None None = Raise assertion_error.
Proof. vm_compute. reflexivity. Qed.

(** Wrong arguments. *)
Theorem interp_refused : forall x y fv left right,
  (forall kind, kind <> "linear" -> construct kind x y fv left right = Raise NotImplementedError) /\
  (fv <> BadFill -> construct "linear" [] y fv left right = Raise IndexError) /\
  (rising x = true -> fv <> BadFill -> x <> [] -> length x <> length y -> construct "linear" x y fv left right = Raise ValueError).
Proof.
  intros. split; [|split].
  - intros kind K. unfold construct. apply String.eqb_neq in K. rewrite K. reflexivity.
  - intro FV. unfold construct. cbn. destruct fv; try contradiction; reflexivity.
  - intros R FV NE L. unfold construct. replace (String.eqb "linear" "linear") with true by reflexivity. cbn [negb]. rewrite R. cbn [rbind].
    apply Nat.eqb_neq in L. destruct x as [|x0 x]; [contradiction|].
    destruct fv; try contradiction; cbn [rbind fst snd]; unfold call; cbn [i_x i_y]; rewrite L; reflexivity.
Qed.
Print Assumptions interp_refused.

(** ** C55: SingleStarInterpolator *)
Section Star.
  Variable D : Type.
  Variables pchip pchip' : D -> Q -> Q.

  Lemma filtered_spec : forall (columns : list (string * D)) flags key, length columns <= length flags ->
    exists r, filtered columns flags key = Ok r /\
      (forall c, In c r <-> exists i, nth_error columns i = Some c /\ nth_error flags i = Some key).
  Proof using Type.
    induction columns as [|c cs IH]; intros flags key L.
    - exists []. split; [destruct flags; reflexivity|]. intro c. split; [intros [] | intros ([|i] & H & _); discriminate].
    - destruct flags as [|[p d] fs]; [cbn in L; lia|]. cbn [filtered]. destruct (IH fs key) as (r & E & H); [cbn in L; lia|].
      rewrite E. cbn [rbind]. eexists. split; [reflexivity|]. intro k.
      assert (forall b, (Bool.eqb p (fst key) && Bool.eqb d (snd key) = b) -> (b = true <-> (p, d) = key)) as BK.
      { intros b <-. destruct key as [kp kd]. cbn [fst snd]. rewrite andb_true_iff, !Bool.eqb_true_iff. split; [intros [-> ->]; reflexivity | intro Q; split; congruence]. }
      split.
      + intro I. destruct (Bool.eqb p (fst key) && Bool.eqb d (snd key)) eqn:B.
        * destruct I as [<- |I].
          -- exists 0. split; [reflexivity|]. cbn. f_equal. apply (proj1 (BK true eq_refl) eq_refl).
          -- apply H in I. destruct I as (i & I1 & I2). exists (S i). split; assumption.
        * apply H in I. destruct I as (i & I1 & I2). exists (S i). split; assumption.
      + intros ([|i] & I1 & I2).
        * cbn in I1, I2. assert (c = k) by congruence. subst k.
          assert (Bool.eqb p (fst key) && Bool.eqb d (snd key) = true) as -> by (apply (proj2 (BK _ eq_refl)); congruence). left. reflexivity.
        * cbn [nth_error] in I1, I2. assert (In k r) by (apply H; exists i; split; assumption).
          destruct (Bool.eqb p (fst key) && Bool.eqb d (snd key)); [right; assumption | assumption].
  Qed.

  Lemma build_spec : forall (columns : list (string * D)) flags keys, length columns <= length flags ->
    exists its, build columns flags keys = Ok its /\
      (forall k c, (exists cs, In (k, cs) its /\ In c cs) <-> In k keys /\ exists i, nth_error columns i = Some c /\ nth_error flags i = Some k).
  Proof using Type.
    intros columns flags keys L. induction keys as [|k ks IH].
    - exists []. split; [reflexivity|]. intros k c. split; [intros (cs & [] & _) | intros [[] _]].
    - cbn [build]. destruct (filtered_spec columns flags k L) as (r & E & H). rewrite E. cbn [rbind].
      destruct IH as (its & E2 & H2). rewrite E2. cbn [rbind]. eexists. split; [reflexivity|]. intros k0 c. split.
      + intros (cs & I1 & I2). assert ((k0 = k /\ cs = r) \/ In (k0, cs) its) as [[-> ->]|I3].
        { destruct r; [right; exact I1|]. destruct I1 as [I1|I1]; [left; split; congruence | right; exact I1]. }
        * split; [left; reflexivity | apply H; exact I2].
        * destruct (proj1 (H2 k0 c)) as [A B]; [exists cs; split; assumption|]. split; [right; exact A | exact B].
      + intros [[<- |I1] I2].
        * apply H in I2. exists r. split; [|exact I2]. destruct r; [destruct I2 | left; reflexivity].
        * destruct (proj2 (H2 k0 c) (conj I1 I2)) as (cs & A & B). exists cs. split; [|exact B]. destruct r; [exact A | right; exact A].
  Qed.

  (** Every column is returned under its own key, from its own data, shifted by the offset,
      as value or derivative, cut at zero if requested; and there are no other keys. *)
  Theorem star_interpolator_exact : forall columns positives derivatives offset t,
    NoDup (map fst columns) ->
    length positives = length columns -> length derivatives = length columns ->
    exists its, star_construct columns (Some positives) (Some derivatives) = Ok its /\
      (forall name, In name (star_keys its) <-> In name (map fst columns)) /\
      (forall i name d p v, nth_error columns i = Some (name, d) -> nth_error positives i = Some p -> nth_error derivatives i = Some v ->
         let raw := if v then pchip' d (t - offset)%Q else pchip d (t - offset)%Q in
         exists w, dget String.eqb (star_call pchip pchip' its offset t) name = Some w /\
           w = if p then (if Qle_bool 0 raw then raw else 0)%Q else raw) /\
      (forall name, ~ In name (map fst columns) -> dget String.eqb (star_call pchip pchip' its offset t) name = None).
  Proof using Type.
    intros columns positives derivatives offset t ND LP LD. unfold star_construct.
    destruct (build_spec columns (combine positives derivatives) combinations) as (its & E & H); [rewrite combine_length; lia|].
    exists its. split; [exact E|].
    assert (forall k, In k combinations) as ALL by (intros [[|] [|]]; cbn; tauto).
    assert (forall i k, nth_error (combine positives derivatives) i = Some k <-> nth_error positives i = Some (fst k) /\ nth_error derivatives i = Some (snd k)) as NC.
    { clear. intros i [p d]. cbn [fst snd]. revert derivatives i. induction positives as [|a l IH]; intros [|b r] [|i]; cbn [combine nth_error]; try (split; [discriminate | intros [? ?]; discriminate]).
      - split; [intro Q; split; congruence | intros [? ?]; congruence].
      - apply IH. }
    assert (forall i j c, nth_error columns i = Some c -> forall c', nth_error columns j = Some c' -> fst c = fst c' -> i = j) as UN.
    { clear -ND. intros i j c I c' J EQ. apply (proj1 (NoDup_nth_error (map fst columns)) ND).
      - rewrite map_length. apply nth_error_Some. congruence.
      - rewrite !nth_map_error, I, J. cbn [option_map]. congruence. }
    split; [|split].
    - intro name. unfold star_keys. rewrite in_flat_map. split.
      + intros ([k cs] & I1 & I2). apply in_map_iff in I2. destruct I2 as (c & <- & I2). cbn [snd] in I2.
        destruct (proj1 (H k c)) as (_ & i & N & _); [exists cs; split; assumption|]. apply in_map. apply nth_error_In in N. exact N.
      + intro I. apply in_map_iff in I. destruct I as (c & <- & I). apply In_nth_error in I. destruct I as (i & I).
        assert (i < length columns) as IL by (apply nth_error_Some; congruence).
        destruct (nth_error positives i) as [p|] eqn:NP; [|apply nth_error_None in NP; lia].
        destruct (nth_error derivatives i) as [d|] eqn:NDv; [|apply nth_error_None in NDv; lia].
        destruct (proj2 (H (p, d) c)) as (cs & A & B); [split; [apply ALL|]; exists i; split; [exact I | apply NC; split; assumption]|].
        exists ((p, d), cs). split; [exact A|]. apply in_map. exact B.
    - intros i name d p v N NP NV. set (raw := if v then pchip' d (t - offset)%Q else pchip d (t - offset)%Q). unfold star_call. rewrite (dget_dset_all String.eqb_spec).
      set (entries := flat_map _ its).
      exists (if p then (if Qle_bool 0 raw then raw else 0)%Q else raw). split; [|reflexivity].
      assert (forall w, In (name, w) entries <-> w = (if p then (if Qle_bool 0 raw then raw else 0)%Q else raw)) as EN.
      { intro w. unfold entries. rewrite in_flat_map. split.
        - intros ([k cs] & I1 & I2). apply in_map_iff in I2. destruct I2 as ([n0 d0] & E0 & I2). cbn [fst snd] in *.
          destruct (proj1 (H k (n0, d0))) as (_ & j & NJ & NF); [exists cs; split; assumption|].
          assert (n0 = name) as -> by congruence. assert (j = i) as -> by (apply (UN j i (name, d0) NJ (name, d) N); reflexivity).
          assert (d0 = d) as -> by congruence. apply (proj1 (NC _ _)) in NF. destruct k as [kp kd]. cbn [fst snd] in NF.
          assert (kp = p /\ kd = v) as [-> ->] by (destruct NF; split; congruence).
          assert (w = value D pchip pchip' (p, v) d (t - offset)%Q) as -> by congruence. reflexivity.
        - intros ->. destruct (proj2 (H (p, v) (name, d))) as (cs & A & B); [split; [apply ALL|]; exists i; split; [exact N | apply NC; split; assumption]|].
          exists ((p, v), cs). split; [exact A|]. apply in_map_iff. exists (name, d). split; [reflexivity | exact B]. }
      clearbody entries. clear -EN. 
      assert (forall l : list (string * Q), (forall w, In (name, w) l -> w = (if p then (if Qle_bool 0 raw then raw else 0)%Q else raw)) -> (exists w, In (name, w) l) ->
              last_write String.eqb l name = Some (if p then (if Qle_bool 0 raw then raw else 0)%Q else raw)) as LW.
      { induction l as [|[n0 w0] l IH]; intros U [w I]; [destruct I|]. rewrite last_write_cons.
        destruct (last_write String.eqb l name) as [w'|] eqn:EL.
        - assert (exists w, In (name, w) l) as X.
          { clear -EL. revert w' EL. induction l as [|[n1 w1] l IH]; intros w' EL; [discriminate|]. rewrite last_write_cons in EL.
            destruct (last_write String.eqb l name) as [w2|] eqn:E2; [destruct (IH w2 eq_refl) as (w & W); exists w; right; exact W|].
            destruct (String.eqb_spec name n1) as [-> |]; [exists w1; left; reflexivity | discriminate]. }
          rewrite <- IH; [reflexivity | intros w1 I1; apply U; right; exact I1 | exact X].
        - destruct I as [I|I].
          + assert (n0 = name /\ w0 = w) as [-> ->] by (split; congruence). rewrite String.eqb_refl. f_equal. apply U. left. reflexivity.
          + exfalso. assert (last_write String.eqb l name <> None) as X; [|contradiction].
            rewrite IH; [congruence | intros w1 I1; apply U; right; exact I1 | exists w; exact I]. }
      rewrite LW; [reflexivity | intros w I; apply EN; exact I | eexists; apply EN; reflexivity].
    - intros name N. unfold star_call. rewrite (dget_dset_all String.eqb_spec).
      set (entries := flat_map _ its).
      assert (forall w, ~ In (name, w) entries) as NO.
      { intros w I. unfold entries in I. apply in_flat_map in I. destruct I as ([k cs] & I1 & I2). apply in_map_iff in I2. destruct I2 as (c & E0 & I2). cbn [fst snd] in *.
        destruct (proj1 (H k c)) as (_ & j & NJ & _); [exists cs; split; assumption|]. apply N. assert (name = fst c) as -> by congruence.
        apply in_map. apply nth_error_In in NJ. exact NJ. }
      clearbody entries. assert (last_write String.eqb entries name = None) as ->; [|reflexivity].
      induction entries as [|[n0 w0] l IH]; [reflexivity|]. rewrite last_write_cons, IH by (intros w I; apply (NO w); right; exact I).
      destruct (String.eqb_spec name n0) as [-> |]; [exfalso; apply (NO w0); left; reflexivity | reflexivity].
  Qed.
End Star.
Print Assumptions star_interpolator_exact.

Example star_interpolator_case : exists its,
  star_construct [("mass", (-1)%Q); ("log_R", 2%Q); ("conv", (-3)%Q)] (Some [true; false; true]) (Some [false; true; true]) = Ok its /\
  star_keys its = ["conv"; "mass"; "log_R"] /\
  map (fun p => (fst p, Qred (snd p))) (star_call (fun d t => d * t)%Q (fun d t => d)%Q its 1 5) = [("conv", 0%Q); ("mass", 0%Q); ("log_R", 2%Q)].
Proof. eexists. split; [reflexivity|]. split; reflexivity. Qed.

(** Fewer flags than columns stop the construction. *)
Theorem star_flags_refused : star_construct [("mass", 1%Q); ("log_R", 2%Q)] (Some [true]) None = Raise IndexError.
Proof. reflexivity. Qed.
