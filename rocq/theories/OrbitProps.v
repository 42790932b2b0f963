(** Orbits: properties C17 (Kepler's third law) and C18 (Roche lobes). *)
From Coq Require Import List Bool PeanoNat Reals Lia Lra.
From Coquelicot Require Import Coquelicot.
From Verif Require Import PyBase PyList RealLemmas OrbitModel OrbitProofs.
Import ListNotations.
Open Scope R_scope.

(** ** C17 *)
(** Each conversion is the law it stands for, in its own units. *)
Theorem C17_laws :
  forall m1 m2, 0 < m1 -> 0 < m2 ->
  (forall P, 0 < P ->
     let a := orbital_separation_from_period P m1 m2 in
     0 < a /\
     4 * 3.1415926535897932384626433832795028841971693993751 ^ 2 * (a * 6.9598e10) ^ 3
       = 6.67428e-8 * ((m1 + m2) * 1.9892e33) * (P * 86400) ^ 2) /\
  (forall a, 0 < a ->
     let P := orbital_period_from_separation a m1 m2 in
     0 < P /\ (P / 365.25) ^ 2 * (m1 + m2) = (a / 214.95) ^ 3).
Proof.
  intros m1 m2 H1 H2. split.
  - intros P HP a. split; [apply separation_pos|].
    pose proof (separation_law P m1 m2 HP ltac:(lra)) as L.
    unfold c_pi, Rsun, standard_cgrav, Msun in L. change day2sec with (24 * 60 * 60) in L.
    replace (24 * 60 * 60) with 86400 in L by ring. exact L.
  - intros a HA P. split; [apply period_pos|]. exact (period_law a m1 m2 HA ltac:(lra)).
Qed.
Print Assumptions C17_laws.

Theorem C17_increasing :
  forall m1 m2, 0 < m1 -> 0 < m2 ->
  (forall P P', 0 < P -> P < P' -> orbital_separation_from_period P m1 m2 < orbital_separation_from_period P' m1 m2) /\
  (forall a a', 0 < a -> a < a' -> orbital_period_from_separation a m1 m2 < orbital_period_from_separation a' m1 m2) /\
  (forall P m1' m2', 0 < P -> m1 + m2 < m1' + m2' ->
     orbital_separation_from_period P m1 m2 < orbital_separation_from_period P m1' m2') /\
  (forall a m1' m2', 0 < a -> m1 + m2 < m1' + m2' ->
     orbital_period_from_separation a m1' m2' < orbital_period_from_separation a m1 m2) /\
  (forall P, 0 < P -> orbital_separation_from_period P m2 m1 = orbital_separation_from_period P m1 m2) /\
  (forall a, 0 < a -> orbital_period_from_separation a m2 m1 = orbital_period_from_separation a m1 m2).
Proof.
  intros m1 m2 H1 H2. destruct constants_pos as (Cpi&CG&CM&CR&Cy&Ca&Cd).
  assert (K : forall P M P' M', 0 < P -> 0 < M -> P <= P' -> M <= M' -> P < P' \/ M < M' -> P ^ 2 * M < P' ^ 2 * M').
  { intros P M P' M' HP HM PP MM D.
    assert (Q : P ^ 2 <= P' ^ 2) by nra. assert (Q0 : 0 < P ^ 2) by nra.
    destruct D as [D|D]; [assert (P ^ 2 < P' ^ 2) by nra|]; nra. }
  assert (S : forall P m n P' m' n', 0 < P -> 0 < m + n -> 0 < P' -> 0 < m' + n' -> P ^ 2 * (m + n) < P' ^ 2 * (m' + n') ->
    orbital_separation_from_period P m n < orbital_separation_from_period P' m' n').
  { intros P m n P' m' n' HP HM HP' HM' L.
    pose proof (separation_law P m n HP HM) as L1. pose proof (separation_law P' m' n' HP' HM') as L2.
    apply Rnot_le_lt. intros G.
    assert (G3 : orbital_separation_from_period P' m' n' ^ 3 <= orbital_separation_from_period P m n ^ 3).
    { apply pow_incr. split; [left; apply separation_pos|easy]. }
    set (x := orbital_separation_from_period P m n) in *. set (y := orbital_separation_from_period P' m' n') in *.
    assert (E : forall P M, standard_cgrav * (M * Msun) * (P * day2sec) ^ 2 = (standard_cgrav * Msun * day2sec ^ 2) * (P ^ 2 * M)) by (intros; ring).
    rewrite E in L1, L2. rewrite !Rpow_mult_distr in L1, L2.
    assert (A : 0 < standard_cgrav * Msun * day2sec ^ 2).
    { apply Rmult_lt_0_compat; [apply Rmult_lt_0_compat; assumption|now apply pow_lt]. }
    assert (B : 0 < Rsun ^ 3) by now apply pow_lt. assert (C : 0 < c_pi ^ 2) by now apply pow_lt.
    set (A' := standard_cgrav * Msun * day2sec ^ 2) in *.
    assert (D : y ^ 3 * Rsun ^ 3 <= x ^ 3 * Rsun ^ 3) by (apply Rmult_le_compat_r; lra).
    assert (F : 4 * c_pi ^ 2 * (y ^ 3 * Rsun ^ 3) <= 4 * c_pi ^ 2 * (x ^ 3 * Rsun ^ 3)) by (apply Rmult_le_compat_l; lra).
    rewrite L1, L2 in F. apply Rmult_le_reg_l in F; [|easy]. lra. }
  assert (T : forall a m n a' m' n', 0 < a -> 0 < m + n -> 0 < a' -> 0 < m' + n' -> a ^ 3 / (m + n) < a' ^ 3 / (m' + n') ->
    orbital_period_from_separation a m n < orbital_period_from_separation a' m' n').
  { intros a m n a' m' n' HA HM HA' HM' L. unfold orbital_period_from_separation.
    apply Rmult_lt_compat_l; [easy|]. apply Rlt_Rpower_l; [lra|]. split.
    - apply Rdiv_lt_0_compat; [apply pow_lt; now apply Rdiv_lt_0_compat|easy].
    - replace ((a / aursun) ^ 3 / (m + n)) with (a ^ 3 / (m + n) / aursun ^ 3) by (field; lra).
      replace ((a' / aursun) ^ 3 / (m' + n')) with (a' ^ 3 / (m' + n') / aursun ^ 3) by (field; lra).
      apply Rmult_lt_compat_r; [apply Rinv_0_lt_compat; now apply pow_lt|easy]. }
  repeat split.
  - intros P P' HP L. apply S; try lra. apply K; lra.
  - intros a a' HA L. apply T; try lra. apply Rmult_lt_compat_r; [apply Rinv_0_lt_compat; lra|now apply cube_lt].
  - intros P m1' m2' HP L. apply S; try lra. apply K; lra.
  - intros a m1' m2' HA L. apply T; try lra. apply Rmult_lt_compat_l; [now apply pow_lt|]. apply Rinv_lt_contravar; [nra|lra].
  - intros P HP. unfold orbital_separation_from_period. now rewrite (Rplus_comm (m2 * Msun)).
  - intros a HA. unfold orbital_period_from_separation. now rewrite (Rplus_comm m2).
Qed.
Print Assumptions C17_increasing.

(** One conversion after the other multiplies by a fixed number close to one. *)
Theorem C17_round_trip :
  exists k l, 1.000147 < k < 1.000149 /\ 1.00009 < l < 1.0001 /\ l ^ 3 = k ^ 2 /\
  forall m1 m2, 0 < m1 -> 0 < m2 ->
  (forall P, 0 < P -> orbital_period_from_separation (orbital_separation_from_period P m1 m2) m1 m2 = k * P) /\
  (forall a, 0 < a -> orbital_separation_from_period (orbital_period_from_separation a m1 m2) m1 m2 = l * a).
Proof.
  exists (sqrt kappa2), (Rpower kappa2 (1 / 3)).
  split; [apply kappa_bounds|]. split; [apply lambda_bounds|]. split.
  { pose proof kappa2_bounds. rewrite Rpower_cube, pow2_sqrt; lra. }
  intros m1 m2 H1 H2. split.
  - intros P HP. apply roundtrip_period; lra.
  - intros a HA. apply roundtrip_separation; lra.
Qed.
Print Assumptions C17_round_trip.

(** They are never inverse to each other: the constants of the two do not agree. *)
Theorem C17_inverse_refuted :
  forall m1 m2, 0 < m1 -> 0 < m2 ->
  (forall P, 0 < P -> orbital_period_from_separation (orbital_separation_from_period P m1 m2) m1 m2 <> P) /\
  (forall a, 0 < a -> orbital_separation_from_period (orbital_period_from_separation a m1 m2) m1 m2 <> a).
Proof.
  destruct C17_round_trip as (k & l & K & L & _ & H). intros m1 m2 H1 H2.
  destruct (H m1 m2 H1 H2) as [HP HA]. split.
  - intros P P0 E. rewrite HP in E by easy. nra.
  - intros a A0 E. rewrite HA in E by easy. nra.
Qed.
Print Assumptions C17_inverse_refuted.

Example C17_example :
  0.003 < orbital_period_from_separation 1 10 5 < 1.
Proof.
  pose proof (period_pos 1 10 5) as Q. pose proof (period_law 1 10 5 ltac:(lra) ltac:(lra)) as L.
  set (p := orbital_period_from_separation 1 10 5) in *. unfold dayyer, aursun in L.
  assert (p ^ 2 * (10 + 5) = 365.25 ^ 2 * (1 / 214.95) ^ 3).
  { rewrite <- L. field. lra. }
  split; apply Rnot_le_lt; intros G; nra.
Qed.

(** ** C18 *)
(** Specification: the value at a place of a number or array (an empty array counts as one NaN), and the law. *)
Definition value (x : arg) (i : nat) : fl :=
  match x with Scalar v => v | Array [] => None | Array [v] => v | Array l => nth i l None end.
Definition size (x : arg) : nat := match x with Scalar _ => 1 | Array [] => 1 | Array l => length l end.
Definition fits (n : nat) (x : arg) : Prop := size x = 1%nat \/ size x = n.
Definition scalar (x : arg) : Prop := match x with Scalar _ => True | Array _ => False end.
(** r is the Roche lobe radius: NaN unless the masses are positive and the separation is not negative. *)
Definition radius (m1 m2 a r : fl) : Prop :=
  match m1, m2, a with
  | Some x, Some y, Some s =>
      (0 < x /\ 0 < y /\ 0 <= s -> forall c, 0 < c -> c ^ 3 = x / y -> r = Some (s * (0.49 * c ^ 2 / (0.6 * c ^ 2 + ln (1 + c))))) /\
      (x <= 0 \/ y <= 0 \/ s < 0 -> r = None)
  | _, _, _ => r = None
  end.

Lemma size_pos x : (1 <= size x)%nat.
Proof. destruct x as [|[|]]; cbn; lia. Qed.
Definition nonempty (x : arg) : Prop := x <> Array [].
Lemma nth_map_lt {A B} (g : A -> B) (l : list A) (i : nat) (d : A) (e : B) : (i < length l)%nat -> nth i (map g l) e = g (nth i l d).
Proof. intros H. rewrite <- (map_nth g). apply nth_indep. now rewrite map_length. Qed.
Local Ltac fin := split; [congruence|split; [tauto|split; [lia|split; [tauto|try reflexivity]]]].
Lemma broadcast_ok f x y n : nonempty x -> nonempty y -> fits n x -> fits n y ->
  exists z, broadcast2 f x y = Ok z /\ nonempty z /\ fits n z /\ size z = Nat.max (size x) (size y) /\
    (scalar z <-> scalar x /\ scalar y) /\ forall i, (i < n)%nat -> value z i = f (value x i) (value y i).
Proof.
  unfold nonempty, fits.
  destruct x as [a|[|a [|a' l]]], y as [b|[|b [|b' m]]]; intros NX NY FX FY; try congruence; cbn [size length] in *.
  - eexists. split; [reflexivity|]. cbn. fin.
  - eexists. split; [reflexivity|]. cbn. fin.
  - eexists. split; [reflexivity|]. cbn. rewrite map_length. fin. intros i I.
    change (nth i (map (f a) (b :: b' :: m)) None = f a (nth i (b :: b' :: m) None)).
    destruct FY as [FY|FY]; [easy|]. apply (nth_map_lt _ _ _ None None). subst n; exact I.
  - eexists. split; [reflexivity|]. cbn. fin.
  - eexists. split; [reflexivity|]. cbn. fin.
  - eexists. split; [reflexivity|]. cbn. rewrite map_length. fin. intros i I.
    change (nth i (map (f a) (b :: b' :: m)) None = f a (nth i (b :: b' :: m) None)).
    destruct FY as [FY|FY]; [easy|]. apply (nth_map_lt _ _ _ None None). subst n; exact I.
  - eexists. split; [reflexivity|]. cbn. rewrite map_length. fin. intros i I.
    change (nth i (map (fun a => f a b) (a :: a' :: l)) None = f (nth i (a :: a' :: l) None) b).
    destruct FX as [FX|FX]; [easy|]. apply (nth_map_lt (fun a => f a b) _ _ None None). subst n; exact I.
  - eexists. split; [reflexivity|]. cbn. rewrite map_length. fin. intros i I.
    change (nth i (map (fun a => f a b) (a :: a' :: l)) None = f (nth i (a :: a' :: l) None) b).
    destruct FX as [FX|FX]; [easy|]. apply (nth_map_lt (fun a => f a b) _ _ None None). subst n; exact I.
  - destruct FX as [FX|FX]; [easy|]. destruct FY as [FY|FY]; [easy|].
    assert (LM : length l = length m) by lia.
    exists (Array (map (fun p => f (fst p) (snd p)) (combine (a :: a' :: l) (b :: b' :: m)))).
    assert (LC : length (combine l m) = length l) by (rewrite combine_length; lia).
    cbn. rewrite LM, Nat.eqb_refl, map_length, LC. repeat split; try easy; try lia.
    intros i I. set (g := fun p : fl * fl => f (fst p) (snd p)).
    change (nth i (map g (combine (a :: a' :: l) (b :: b' :: m))) None = f (nth i (a :: a' :: l) None) (nth i (b :: b' :: m) None)).
    eapply eq_trans; [apply (nth_map_lt g _ _ (None, None) None); rewrite combine_length; cbn; lia|].
    rewrite combine_nth by exact (f_equal S (f_equal S LM)). reflexivity.
Qed.
Lemma broadcast_fails f x y : nonempty x -> nonempty y -> size x <> 1%nat -> size y <> 1%nat -> size x <> size y ->
  broadcast2 f x y = Raise ValueError.
Proof.
  unfold nonempty. destruct x as [a|[|a [|a' l]]], y as [b|[|b [|b' m]]]; cbn [size length]; intros NX NY SX SY D; try congruence; try easy.
  cbn. destruct (Nat.eqb_spec (length l) (length m)); [lia|easy].
Qed.
Lemma map_arg_facts f x : nonempty x -> nonempty (map_arg f x) /\ size (map_arg f x) = size x /\ (scalar (map_arg f x) <-> scalar x) /\
  forall i n, fits n x -> (i < n)%nat -> value (map_arg f x) i = f (value x i).
Proof.
  unfold nonempty, fits. destruct x as [a|[|a [|a' l]]]; intros NX; try congruence; cbn; repeat split; try easy.
  - now rewrite map_length.
  - intros i n [F|F] I; [easy|subst n]. change (nth i (map f (a :: a' :: l)) None = f (nth i (a :: a' :: l) None)).
    apply (nth_map_lt _ _ _ None None). exact I.
Qed.
Lemma clean_facts bad x : bad None = false -> nonempty (clean bad x) /\ size (clean bad x) = size x /\ (scalar (clean bad x) <-> scalar x) /\
  forall i n, fits n x -> (i < n)%nat -> value (clean bad x) i = if bad (value x i) then None else value x i.
Proof.
  intros BN. unfold nonempty, fits. destruct x as [a|[|a [|a' l]]]; cbn; repeat split; try easy.
  - intros. now rewrite BN.
  - now rewrite map_length.
  - intros i n [F|F] I; [easy|subst n]. set (g := fun v : fl => if bad v then None else v).
    change (nth i (map g (a :: a' :: l)) None = g (nth i (a :: a' :: l) None)).
    apply (nth_map_lt _ _ _ None None). exact I.
Qed.

Lemma radius_of m1 m2 a :
  radius m1 m2 a
    (let a := if bad_separation a then None else a in
     let m1 := if bad_mass m1 then None else m1 in
     let m2 := if bad_mass m2 then None else m2 in
     let q := lift2 Rdiv m1 m2 in
     lift2 Rdiv (lift2 Rmult a (lift1 (fun q => 0.49 * Rpower q (2 / 3)) q))
       (lift1 (fun q => 0.6 * Rpower q (2 / 3) + ln (1 + Rpower q (1 / 3))) q)).
Proof.
  destruct m1 as [x|], m2 as [y|], a as [s|]; unfold radius, bad_separation, bad_mass, flt, fle; cbv zeta;
    repeat (match goal with |- context [Rlt_dec ?u ?v] => destruct (Rlt_dec u v) | |- context [Rle_dec ?u ?v] => destruct (Rle_dec u v) end);
    cbn [lift1 lift2]; try reflexivity; (split; [intros [X [Y S]] c C E; try lra|intros [B|[B|B]]; try lra; try reflexivity]).
  f_equal.
  assert (C1 : Rpower (x / y) (1 / 3) = c).
  { apply cube_inj. rewrite Rpower_cube; [now symmetry|]. now apply Rdiv_lt_0_compat. }
  rewrite Rpower_two_thirds, C1. unfold Rdiv. ring.
Qed.

Lemma bad_mass_None : bad_mass None = false. Proof. reflexivity. Qed.
Lemma bad_separation_None : bad_separation None = false. Proof. reflexivity. Qed.

(** Numbers and arrays: place by place. *)
Theorem C18_elementwise :
  forall m1 m2 a n, fits n m1 -> fits n m2 -> fits n a ->
  exists r, roche_lobe_radius m1 m2 a = Ok r /\ size r = Nat.max (size m1) (Nat.max (size m2) (size a)) /\
    (scalar r <-> scalar m1 /\ scalar m2 /\ scalar a) /\
    forall i, (i < n)%nat -> radius (value m1 i) (value m2 i) (value a i) (value r i).
Proof.
  intros m1 m2 a n F1 F2 FA. unfold roche_lobe_radius. cbv zeta.
  destruct (clean_facts bad_mass m1 bad_mass_None) as (N1 & S1 & C1 & V1).
  destruct (clean_facts bad_mass m2 bad_mass_None) as (N2 & S2 & C2 & V2).
  destruct (clean_facts bad_separation a bad_separation_None) as (NA & SA & CA & VA).
  set (m1' := clean bad_mass m1) in *. set (m2' := clean bad_mass m2) in *. set (a' := clean bad_separation a) in *.
  assert (G1 : fits n m1') by (unfold fits; rewrite S1; exact F1).
  assert (G2 : fits n m2') by (unfold fits; rewrite S2; exact F2).
  assert (GA : fits n a') by (unfold fits; rewrite SA; exact FA).
  destruct (broadcast_ok (lift2 Rdiv) m1' m2' n N1 N2 G1 G2) as (q & Eq & Nq & Fq & Sq & Cq & Vq).
  rewrite Eq. cbn [rbind].
  destruct (map_arg_facts (lift1 (fun q => 0.49 * Rpower q (2 / 3))) q Nq) as (Nu & Su & Cu & Vu).
  destruct (map_arg_facts (lift1 (fun q => 0.6 * Rpower q (2 / 3) + ln (1 + Rpower q (1 / 3)))) q Nq) as (Nd & Sd & Cd & Vd).
  set (u := map_arg (lift1 (fun q => 0.49 * Rpower q (2 / 3))) q) in *.
  set (d := map_arg (lift1 (fun q => 0.6 * Rpower q (2 / 3) + ln (1 + Rpower q (1 / 3)))) q) in *.
  assert (Gu : fits n u) by (unfold fits; rewrite Su; exact Fq).
  assert (Gd : fits n d) by (unfold fits; rewrite Sd; exact Fq).
  destruct (broadcast_ok (lift2 Rmult) a' u n NA Nu GA Gu) as (w & Ew & Nw & Fw & Sw & Cw & Vw).
  rewrite Ew. cbn [rbind].
  destruct (broadcast_ok (lift2 Rdiv) w d n Nw Nd Fw Gd) as (r & Er & Nr & Fr & Sr & Cr & Vr).
  rewrite Er. exists r. split; [easy|]. split; [|split].
  - rewrite Sr, Sw, Sd, Su, Sq, S1, S2, SA. lia.
  - tauto.
  - intros i I. rewrite (Vr i I), (Vw i I), (Vu i n Fq I), (Vd i n Fq I), (Vq i I), (V1 i n F1 I), (V2 i n F2 I), (VA i n FA I).
    apply radius_of.
Qed.
Print Assumptions C18_elementwise.

Theorem C18_shapes :
  forall m1 m2 a,
  roche_lobe_radius m1 m2 a = Raise ValueError <-> ~ exists n, fits n m1 /\ fits n m2 /\ fits n a.
Proof.
  intros m1 m2 a. split.
  - intros E [n [F1 [F2 FA]]]. destruct (C18_elementwise m1 m2 a n F1 F2 FA) as (r & E' & _). congruence.
  - intros N. unfold roche_lobe_radius. cbv zeta.
    destruct (clean_facts bad_mass m1 bad_mass_None) as (N1 & S1 & C1 & V1).
    destruct (clean_facts bad_mass m2 bad_mass_None) as (N2 & S2 & C2 & V2).
    destruct (clean_facts bad_separation a bad_separation_None) as (NA & SA & CA & VA).
    set (m1' := clean bad_mass m1) in *. set (m2' := clean bad_mass m2) in *. set (a' := clean bad_separation a) in *.
    assert (D : (size m1' <> 1 /\ size m2' <> 1 /\ size m1' <> size m2')%nat \/ exists n, fits n m1' /\ fits n m2' /\ (size m1' = 1 /\ size m2' = 1 \/ size m1' = n \/ size m2' = n)%nat).
    { unfold fits. destruct (Nat.eq_dec (size m1') 1); [right; exists (size m2'); tauto|].
      destruct (Nat.eq_dec (size m2') 1); [right; exists (size m1'); tauto|].
      destruct (Nat.eq_dec (size m1') (size m2')) as [E|]; [right; exists (size m1'); rewrite E in *; tauto|left; tauto]. }
    destruct D as [(D1 & D2 & D)|(n & F1 & F2 & D)].
    + rewrite broadcast_fails by easy. reflexivity.
    + destruct (broadcast_ok (lift2 Rdiv) m1' m2' n N1 N2 F1 F2) as (q & Eq & Nq & Fq & Sq & Cq & Vq).
      rewrite Eq. cbn [rbind].
      destruct (map_arg_facts (lift1 (fun q => 0.49 * Rpower q (2 / 3))) q Nq) as (Nu & Su & Cu & Vu).
      rewrite broadcast_fails; [reflexivity|easy|easy| | |].
      * intros E. apply N. exists n. unfold fits in *. rewrite <- S1, <- S2, <- SA. tauto.
      * rewrite Su. intros E. apply N. exists (size a). rewrite Sq in E. unfold fits. rewrite <- S1, <- S2.
        pose proof (size_pos m1'). pose proof (size_pos m2').
        split; [left; lia|]. split; [left; lia|now right].
      * rewrite Su. intros E. apply N. exists n. unfold fits in *. rewrite <- S1, <- S2, <- SA, E, Sq.
        repeat split; try tauto. lia.
Qed.
Print Assumptions C18_shapes.

(** For numbers: between 0 and 49/60 of the separation, proportional to it, increasing with the mass ratio;
    the lobes of the two stars do not overlap. *)
Lemma roche_value m1 m2 a : 0 < m1 -> 0 < m2 -> 0 <= a ->
  roche_of (Some m1) (Some m2) (Some a) = Some (a * lobe (Rpower (m1 / m2) (1 / 3))).
Proof.
  intros H1 H2 HA. unfold roche_of.
  destruct (C18_elementwise (Scalar (Some m1)) (Scalar (Some m2)) (Scalar (Some a)) 1) as (r & E & _ & S & V); try (now left).
  rewrite E. destruct r as [r|l]; [|cbn in S; tauto].
  specialize (V 0%nat ltac:(lia)). cbn in V. destruct V as [V _].
  assert (Q : 0 < m1 / m2) by now apply Rdiv_lt_0_compat.
  rewrite <- lobe_formula by apply Rpower_pos. apply V; [easy|apply Rpower_pos|now apply Rpower_cube].
Qed.
Theorem C18_numbers :
  forall m1 m2 a, 0 < m1 -> 0 < m2 -> 0 < a ->
  exists r s, roche_of (Some m1) (Some m2) (Some a) = Some r /\ roche_of (Some m2) (Some m1) (Some a) = Some s /\
    0 < r < 49 / 60 * a /\ r + s < a /\
    (forall k, 0 < k -> roche_of (Some m1) (Some m2) (Some (k * a)) = Some (k * r)) /\
    (forall k, 0 < k -> roche_of (Some (k * m1)) (Some (k * m2)) (Some a) = Some r) /\
    (forall m1' m2' r', 0 < m1' -> 0 < m2' -> m1 / m2 < m1' / m2' -> roche_of (Some m1') (Some m2') (Some a) = Some r' -> r < r').
Proof.
  intros m1 m2 a H1 H2 HA.
  exists (a * lobe (Rpower (m1 / m2) (1 / 3))), (a * lobe (Rpower (m2 / m1) (1 / 3))).
  set (x := Rpower (m1 / m2) (1 / 3)).
  assert (X : 0 < x) by apply Rpower_pos.
  assert (I : Rpower (m2 / m1) (1 / 3) = / x).
  { unfold x. replace (m2 / m1) with (/ (m1 / m2)) by (field; lra).
    rewrite <- Rpower_Ropp. unfold Rpower. f_equal. rewrite ln_Rinv by now apply Rdiv_lt_0_compat. ring. }
  split; [apply roche_value; lra|]. split; [apply roche_value; lra|].
  pose proof (lobe_pos x X). pose proof (lobe_bound x X).
  split; [split; nra|]. split.
  { rewrite I. pose proof (lobes_disjoint x X). nra. }
  split; [|split].
  - intros k K. rewrite roche_value by nra. f_equal. fold x. ring.
  - intros k K. rewrite roche_value by nra. f_equal. f_equal. unfold x. f_equal. f_equal. field. split; lra.
  - intros m1' m2' r' H1' H2' L E. rewrite roche_value in E by lra.
    assert (R' : r' = a * lobe (Rpower (m1' / m2') (1 / 3))) by congruence. subst r'.
    apply Rmult_lt_compat_l; [easy|]. apply lobe_increasing; [easy|]. unfold x. apply Rlt_Rpower_l; [lra|].
    split; [now apply Rdiv_lt_0_compat|easy].
Qed.
Print Assumptions C18_numbers.

(** check_for_RLO *)
Theorem C18_check :
  forall m1 r1 m2 r2 a tol,
  (check_for_RLO m1 r1 m2 r2 a tol = false <->
     exists x rx y ry s lx ly, m1 = Some x /\ r1 = Some rx /\ m2 = Some y /\ r2 = Some ry /\ a = Some s /\ 0 < x /\ 0 < y /\ 0 <= s /\
       roche_of m1 m2 a = Some lx /\ roche_of m2 m1 a = Some ly /\ rx < lx + tol /\ ry < ly + tol) /\
  check_for_RLO m2 r2 m1 r1 a tol = check_for_RLO m1 r1 m2 r2 a tol.
Proof.
  intros m1 r1 m2 r2 a tol. unfold check_for_RLO. cbv zeta.
  assert (N : forall m1 m2 a l, roche_of m1 m2 a = Some l -> exists x y s, m1 = Some x /\ m2 = Some y /\ a = Some s /\ 0 < x /\ 0 < y /\ 0 <= s).
  { clear. intros m1 m2 a l. unfold roche_of.
    destruct (C18_elementwise (Scalar m1) (Scalar m2) (Scalar a) 1) as (r & E & _ & S & V); try (now left).
    rewrite E. destruct r as [r|r]; [|easy]. intros ->. specialize (V 0%nat ltac:(lia)). cbn in V.
    destruct m1 as [x|], m2 as [y|], a as [s|]; try discriminate V. destruct V as [_ V].
    exists x, y, s. destruct (Rle_dec x 0); [specialize (V (or_introl r)); discriminate V|].
    destruct (Rle_dec y 0) as [K|]; [specialize (V (or_intror (or_introl K))); discriminate V|].
    destruct (Rlt_dec s 0) as [K|]; [specialize (V (or_intror (or_intror K))); discriminate V|].
    repeat split; lra. }
  split.
  - destruct (roche_of m1 m2 a) as [lx|] eqn:E1.
    2:{ split.
        - destruct r1; cbn; discriminate.
        - intros (x & rx & y & ry & s & lx & ly & H). exfalso. intuition discriminate. }
    destruct (N _ _ _ _ E1) as (x & y & s & -> & -> & -> & X & Y & S).
    destruct (roche_of (Some y) (Some x) (Some s)) as [ly|] eqn:E2.
    2:{ split.
        - destruct r1, r2; cbn; try discriminate; destruct (Rlt_dec _ _); discriminate.
        - intros (x' & rx & y' & ry & s' & lx' & ly & H). exfalso. intuition discriminate. }
    destruct r1 as [rx|], r2 as [ry|]; cbn [lift2 flt]; split;
      try (destruct (Rlt_dec (rx - lx) tol)); try (destruct (Rlt_dec (ry - ly) tol)); cbn [andb]; try discriminate;
      try (intros _; exists x, rx, y, ry, s, lx, ly; repeat split; (reflexivity || lra));
      intros (x' & rx' & y' & ry' & s' & lx' & ly' & H); destruct H as (_ & HA & _ & HB & _ & _ & _ & _ & HC & HD & HE & HF);
      try discriminate; try reflexivity; exfalso;
      assert (rx' = rx) by congruence; assert (ry' = ry) by congruence; assert (lx' = lx) by congruence; assert (ly' = ly) by congruence;
      subst; lra.
  - rewrite andb_comm. reflexivity.
Qed.
Print Assumptions C18_check.

(** NaN counts as overflow. *)
Theorem C18_nan_is_overflow :
  forall m1 r1 m2 r2 a tol,
  m1 = None \/ r1 = None \/ m2 = None \/ r2 = None \/ a = None \/
  (exists x, m1 = Some x /\ x <= 0) \/ (exists x, m2 = Some x /\ x <= 0) \/ (exists s, a = Some s /\ s < 0) ->
  check_for_RLO m1 r1 m2 r2 a tol = true.
Proof.
  intros m1 r1 m2 r2 a tol H. destruct (check_for_RLO m1 r1 m2 r2 a tol) eqn:E; [easy|exfalso].
  apply C18_check in E. destruct E as (x & rx & y & ry & s & lx & ly & -> & -> & -> & -> & -> & X & Y & S & _).
  destruct H as [H|[H|[H|[H|[H|[(z & E & Z)|[(z & E & Z)|(z & E & Z)]]]]]]]; try discriminate.
  - assert (z = x) by congruence. lra.
  - assert (z = y) by congruence. lra.
  - assert (z = s) by congruence. lra.
Qed.
Print Assumptions C18_nan_is_overflow.

(** The caller's arrays are changed. *)
Theorem C18_arguments_kept_refuted :
  exists m1 m2 a r m1', roche_call m1 m2 a = (Ok r, (m1', m2, a)) /\ m1' <> m1.
Proof.
  exists (Array [Some (-1)]), (Scalar (Some 1)), (Scalar (Some 1)), (Array [None]), (Array [None]).
  split; [|congruence]. unfold roche_call, roche_lobe_radius, bad_mass, bad_separation, fle, flt, clean, caller_sees. cbn [map].
  destruct (Rle_dec (-1) 0); [|lra]. destruct (Rle_dec 1 0); [lra|]. destruct (Rlt_dec 1 0); [lra|]. reflexivity.
Qed.
Print Assumptions C18_arguments_kept_refuted.

Example C18_equal_masses :
  exists r, roche_of (Some 8) (Some 8) (Some 100) = Some r /\ 37 < r < 39.
Proof.
  rewrite roche_value by lra. eexists; split; [reflexivity|].
  replace (8 / 8) with 1 by field. replace (Rpower 1 (1 / 3)) with 1 by (apply cube_inj; rewrite Rpower_cube; lra).
  unfold lobe. pose proof (ln_artanh (1/3) ltac:(lra)) as A1. replace ((1 + 1 / 3) / (1 - 1 / 3)) with (1 + 1) in A1 by field.
  assert (A2 : ln (1 + 1) < 0.7).
  { rewrite <- (ln_exp 0.7). apply ln_increasing; [lra|].
    apply Rlt_le_trans with (1 + 0.7 + 0.7 ^ 2 / 2 + 0.7 ^ 3 / 6); [lra|].
    pose proof (exp_ge_taylor 0.7 3 ltac:(lra)) as T. cbn in T. lra. }
  replace (ln (1 + 1) / 1 ^ 2) with (ln (1 + 1)) by field.
  set (l := ln (1 + 1)) in *.
  assert (E : 100 * (0.49 / (0.6 + l)) * (0.6 + l) = 49) by (replace 0.49 with (49 / 100) by lra; field; lra). nra.
Qed.
