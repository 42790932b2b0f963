(** Proofs about names, files and secondary masses. *)
From Coq Require Import String List ZArith QArith Bool Lia Lqa.
From Verif Require Import PyBase PyNum PyList SamplerModel SamplerProofs SampleModel SampleSpec.
Import ListNotations.
Open Scope nat_scope.
Open Scope list_scope.

(** ** Names *)

Lemma find_first : forall A (f : A -> bool) l x, find f l = Some x ->
  exists a b, l = a ++ x :: b /\ f x = true /\ forall y, In y a -> f y = false.
Proof.
  induction l as [|y l IH]; intros x H; [discriminate|]. cbn in H. destruct (f y) eqn:E.
  - assert (x = y) as -> by congruence. exists [], l. split; [reflexivity|]. split; [exact E|]. intros ? [].
  - destruct (IH x H) as (a & b & -> & F & N). exists (y :: a), b. split; [reflexivity|].
    split; [exact F|]. intros z [<- | I]; [exact E | apply N; exact I].
Qed.

Lemma infer_key_spec : forall casefold available allowed,
  resolves casefold available allowed (infer_key casefold available allowed)
  \/ (unresolved casefold available allowed /\ infer_key casefold available allowed = EmptyString).
Proof.
  intros casefold available. induction allowed as [|k ks IH].
  - right. split; [intros ? ? [] | reflexivity].
  - cbn [infer_key].
    destruct (find (fun key => String.eqb (casefold key) (casefold k)) available) as [key|] eqn:E.
    + left. apply find_first in E. destruct E as (a & b & -> & F & N). apply String.eqb_eq in F.
      exists [], k, ks, a, b. split; [reflexivity|]. split; [reflexivity|]. split; [exact F|].
      split; [|intros ? ? []]. intros x I. apply String.eqb_neq. apply N. exact I.
    + assert (forall x, In x available -> casefold x <> casefold k) as N.
      { intros x I. apply String.eqb_neq. apply (find_none _ _ E x I). }
      destruct IH as [(pre & k' & post & a & b & -> & EQ & C & NA & NP) | [U E2]].
      * left. exists (k :: pre), k', post, a, b. split; [reflexivity|]. split; [exact EQ|].
        split; [exact C|]. split; [exact NA|].
        intros k2 x [<- | I] IX; [apply N; exact IX | apply (NP k2 x I IX)].
      * right. split; [|exact E2]. intros k2 x [<- | I] IX; [apply N; exact IX | apply (U k2 x I IX)].
Qed.

Lemma resolves_in : forall casefold available allowed key,
  resolves casefold available allowed key -> In key available.
Proof.
  intros casefold available allowed key (pre & k & post & a & b & _ & -> & _). apply in_or_app. right. left.
  reflexivity.
Qed.

(** The resolved name is unique. *)
Lemma resolves_fun : forall casefold available allowed k1 k2,
  resolves casefold available allowed k1 -> resolves casefold available allowed k2 -> k1 = k2.
Proof.
  intros casefold available allowed k1 k2 (pre & k & post & a & b & EA & EV & C & NA & NP)
    (pre' & k' & post' & a' & b' & EA' & EV' & C' & NA' & NP').
  assert (In k1 available) as I1 by (rewrite EV; apply in_or_app; right; left; reflexivity).
  assert (In k2 available) as I2 by (rewrite EV'; apply in_or_app; right; left; reflexivity).
  assert (pre = pre' /\ k = k') as [E1 E2].
  { rewrite EA' in EA. clear EA'. revert pre' EA NP'.
    assert (forall p p' post post', p' ++ k' :: post' = p ++ k :: post ->
      (forall q x, In q p -> In x available -> casefold x <> casefold q) ->
      (forall q x, In q p' -> In x available -> casefold x <> casefold q) -> p = p' /\ k = k') as L.
    { induction p as [|q p IH]; intros [|q' p'] po po' E N N'; cbn in E.
      - inversion E; subst. split; reflexivity.
      - inversion E; subst. exfalso. apply (N' k k1); [left; reflexivity | exact I1 | exact C].
      - inversion E; subst. exfalso. apply (N q k2); [left; reflexivity | exact I2 | exact C'].
      - inversion E; subst. destruct (IH p' po po' H1) as [-> ->].
        + intros r x I. apply N. right. exact I.
        + intros r x I. apply N'. right. exact I.
        + split; reflexivity. }
    intros pre' E N'. apply (L pre pre' post post' E NP N'). }
  subst pre' k'. rewrite EV' in EV. clear EA EA' NP NP'. clear I1 I2 EV'.
  revert a a' NA NA' EV. induction a as [|x a IH]; intros [|x' a'] NA NA' E; cbn in E.
  - congruence.
  - injection E as EH ET. exfalso. apply (NA' k1); [rewrite <- EH; left; reflexivity | exact C].
  - injection E as EH ET. exfalso. apply (NA k2); [rewrite EH; left; reflexivity | exact C'].
  - injection E as EH ET. apply (IH a').
    + intros y I. apply NA. right. exact I.
    + intros y I. apply NA'. right. exact I.
    + exact ET.
Qed.

Lemma column_in : forall d key l, NoDup (map fst (columns d)) -> In (key, l) (columns d) ->
  column d key = Ok l.
Proof.
  unfold column. intros d key l. induction (columns d) as [|[k c] cs IH]; intros ND I; [destruct I|].
  cbn [find fst]. inversion ND; subst. destruct I as [E | I].
  - inversion E; subst. rewrite String.eqb_refl. reflexivity.
  - destruct (String.eqb k key) eqn:EK.
    + apply String.eqb_eq in EK. subst. exfalso. apply H1. apply in_map_iff. exists (key, l). auto.
    + apply IH; assumption.
Qed.

(** ** Cyclic reading *)

Definition copies {A} (l0 l : list A) :=
  exists c, 1 <= c /\ length l = c * length l0 /\
            forall j, j < length l -> nth_error l j = nth_error l0 (j mod length l0).

Lemma copies_self : forall A (l : list A), copies l l.
Proof.
  intros. exists 1. split; [lia|]. split; [lia|]. intros j B. rewrite Nat.mod_small by exact B. reflexivity.
Qed.

Lemma copies_double : forall A (l0 l : list A), l0 <> [] -> copies l0 l -> copies l0 (l ++ l).
Proof.
  intros A l0 l NE (c & C & L & P). exists (c + c). split; [lia|].
  assert (length l0 <> 0) as Z by (destruct l0; [congruence | discriminate]).
  split; [rewrite app_length; lia|].
  intros j B. rewrite app_length in B. destruct (Nat.lt_ge_cases j (length l)) as [J|J].
  - rewrite nth_error_app1 by exact J. apply P. exact J.
  - rewrite nth_error_app2 by exact J. rewrite P by lia. f_equal.
    rewrite L. replace j with ((j - c * length l0) + c * length l0) at 2 by lia.
    rewrite Nat.mod_add by exact Z. reflexivity.
Qed.

Lemma cyclic_slice : forall A (l0 l : list A) i n, copies l0 l -> i + n <= length l ->
  cyclic l0 i n (slice i n l).
Proof.
  intros A l0 l i n (c & C & L & P) B. unfold slice. split.
  - rewrite firstn_length, skipn_length. lia.
  - intros j J. rewrite nth_firstn_lt by exact J. rewrite nth_skipn. apply P. lia.
Qed.

Lemma double_quad_ok : forall m o0 e0 a0 b0, 1 <= m -> length o0 = m -> length e0 = m ->
  length a0 = m -> length b0 = m ->
  forall fuel need o e a b, copies o0 o -> copies e0 e -> copies a0 a -> copies b0 b ->
  length e = length o -> length a = length o -> length b = length o ->
  need <= length o + fuel ->
  exists q, double_quad fuel need (Quad o e a b) = Some q /\
    copies o0 (q_orbit q) /\ copies e0 (q_ecc q) /\ copies a0 (q_m1 q) /\ copies b0 (q_m2 q) /\
    need <= length (q_orbit q) /\ length (q_ecc q) = length (q_orbit q) /\
    length (q_m1 q) = length (q_orbit q) /\ length (q_m2 q) = length (q_orbit q).
Proof.
  intros m o0 e0 a0 b0 M Lo Le La Lb.
  assert (o0 <> [] /\ e0 <> [] /\ a0 <> [] /\ b0 <> []) as (No & Ne & Na & Nb).
  { repeat split; intros ->; cbn in *; lia. }
  induction fuel as [|f IH]; intros need o e a b Co Ce Ca Cb E1 E2 E3 B.
  - cbn. destruct (need <=? length o) eqn:E; [|apply Nat.leb_gt in E; lia].
    apply Nat.leb_le in E. eexists. split; [reflexivity|]. cbn. tauto.
  - cbn [double_quad q_orbit]. destruct (need <=? length o) eqn:E.
    + apply Nat.leb_le in E. eexists. split; [reflexivity|]. cbn. tauto.
    + assert (1 <= length o) by (destruct Co as (c & C & L & _); rewrite L, Lo; nia).
      cbn [q_orbit q_ecc q_m1 q_m2].
      apply IH; try (apply copies_double; assumption); rewrite !app_length; lia.
Qed.

Lemma double_quad_stuck : forall fuel need, 0 < need -> double_quad fuel need (Quad [] [] [] []) = None.
Proof.
  induction fuel; intros need H; cbn; destruct (need <=? 0) eqn:E; try (apply Nat.leb_le in E; lia).
  - reflexivity.
  - apply IHfuel. exact H.
Qed.

Lemma double_kicks_ok : forall m a0 b0, 1 <= m -> length a0 = m -> length b0 = m ->
  forall fuel need a b, copies a0 a -> copies b0 b -> length b = length a -> need <= length a + fuel ->
  exists a' b', double_kicks fuel need a b = Some (a', b') /\ copies a0 a' /\ copies b0 b' /\
    need <= length a' /\ length b' = length a'.
Proof.
  intros m a0 b0 M La Lb.
  assert (a0 <> [] /\ b0 <> []) as (Na & Nb) by (split; intros ->; cbn in *; lia).
  induction fuel as [|f IH]; intros need a b Ca Cb E1 B.
  - cbn. destruct (need <=? length a) eqn:E; [|apply Nat.leb_gt in E; lia].
    apply Nat.leb_le in E. eexists _, _. split; [reflexivity|]. tauto.
  - cbn [double_kicks]. destruct (need <=? length a) eqn:E.
    + apply Nat.leb_le in E. eexists _, _. split; [reflexivity|]. tauto.
    + assert (1 <= length a) by (destruct Ca as (c & C & L & _); rewrite L, La; nia).
      cbn [q_orbit q_ecc q_m1 q_m2].
      apply IH; try (apply copies_double; assumption); rewrite !app_length; lia.
Qed.

Lemma double_kicks_stuck : forall fuel need, 0 < need -> double_kicks fuel need [] [] = None.
Proof.
  induction fuel; intros need H; cbn; destruct (need <=? 0) eqn:E; try (apply Nat.leb_le in E; lia).
  - reflexivity.
  - apply IHfuel. exact H.
Qed.

(** ** Reading a file *)

Section FromFile.
  Variable G : Type.
  Variable casefold : string -> string.
  Variable g_ecc : nat -> G -> run (list num * G).
  Variable g_m1 : nat -> G -> run (list num * G).
  Variable g_m2 : list num -> nat -> G -> run (list num * G).
  Variable g_sep : nat -> G -> run (list num * G).
  Variable g_per : list num -> nat -> G -> run (list num * G).

  Lemma column_or_ok : forall d names gen g l g', table_ok d ->
    sourced casefold d names gen g l g' ->
    column_or G casefold d names gen g = Some (Ok (l, g')) /\ length l = n_rows d.
  Proof.
    intros d names gen g l g' (ND & NE & LEN) S. unfold column_or.
    destruct (infer_key_spec casefold (map fst (columns d)) names) as [R | [U E]];
      destruct S as [(key & R' & I & ->) | (U' & EG & L)].
    - rewrite (resolves_fun _ _ _ _ _ R R').
      destruct (String.eqb key EmptyString) eqn:EK.
      + apply String.eqb_eq in EK. subst. exfalso. apply NE. apply in_map_iff. exists (EmptyString, l). auto.
      + rewrite (column_in d key l ND I). split; [reflexivity | apply (LEN key); exact I].
    - exfalso. destruct R as (pre & k & post & a & b & EA & EV & C & _).
      apply (U' k (infer_key casefold (map fst (columns d)) names)); [| |exact C].
      + rewrite EA. apply in_or_app. right. left. reflexivity.
      + rewrite EV at 2. apply in_or_app. right. left. reflexivity.
    - exfalso. destruct R' as (pre & k & post & a & b & EA & EV & C & _). apply (U k key); [| |exact C].
      + rewrite EA. apply in_or_app. right. left. reflexivity.
      + rewrite EV. apply in_or_app. right. left. reflexivity.
    - rewrite E. rewrite String.eqb_refl. split; assumption.
  Qed.

  Lemma samples_ok : forall fuel scheme k d g e g1 m1 g2 m2 g3 o g4,
    k_path k = File d -> table_ok d ->
    sourced casefold d ECCENTRICITY_NAMES g_ecc g e g1 ->
    sourced casefold d PRIMARY_MASS_NAMES g_m1 g1 m1 g2 ->
    sourced casefold d SECONDARY_MASS_NAMES (g_m2 m1) g2 m2 g3 ->
    (scheme = Some "separation"%string /\ sourced casefold d SEPARATION_NAMES g_sep g3 o g4 \/
     scheme = Some "period"%string /\ sourced casefold d PERIOD_NAMES (g_per m1) g3 o g4) ->
    get_samples_from_file G casefold g_ecc g_m1 g_m2 g_sep g_per fuel scheme k g =
      let n := match k_number k with Some n => n | None => 0 end in
      if 0 <? n then
        let i := match k_index k with Some i => i | None => 0 end in
        match double_quad fuel (i + n) (Quad o e m1 m2) with
        | None => None
        | Some q => ret (Ok (Quad (slice i n (q_orbit q)) (slice i n (q_ecc q))
                                  (slice i n (q_m1 q)) (slice i n (q_m2 q)), g4))
        end
      else ret (Ok (Quad o e m1 m2, g4)).
  Proof.
    intros fuel scheme k d g e g1 m1 g2 m2 g3 o g4 EP T Se S1 S2 So. unfold get_samples_from_file. rewrite EP.
    rewrite (proj1 (column_or_ok _ _ _ _ _ _ T Se)). cbn [bind].
    rewrite (proj1 (column_or_ok _ _ _ _ _ _ T S1)). cbn [bind].
    rewrite (proj1 (column_or_ok _ _ _ _ _ _ T S2)). cbn [bind].
    destruct So as [[-> So] | [-> So]];
      rewrite (proj1 (column_or_ok _ _ _ _ _ _ T So)); reflexivity.
  Qed.

  Lemma samples_cyclic : forall fuel scheme k d g e g1 m1 g2 m2 g3 o g4 n,
    k_path k = File d -> table_ok d -> 1 <= n_rows d ->
    sourced casefold d ECCENTRICITY_NAMES g_ecc g e g1 ->
    sourced casefold d PRIMARY_MASS_NAMES g_m1 g1 m1 g2 ->
    sourced casefold d SECONDARY_MASS_NAMES (g_m2 m1) g2 m2 g3 ->
    (scheme = Some "separation"%string /\ sourced casefold d SEPARATION_NAMES g_sep g3 o g4 \/
     scheme = Some "period"%string /\ sourced casefold d PERIOD_NAMES (g_per m1) g3 o g4) ->
    k_number k = Some n -> 1 <= n ->
    let i := match k_index k with Some i => i | None => 0 end in
    i + n <= fuel ->
    exists q, get_samples_from_file G casefold g_ecc g_m1 g_m2 g_sep g_per fuel scheme k g = Some (Ok (q, g4)) /\
      cyclic o i n (q_orbit q) /\ cyclic e i n (q_ecc q) /\ cyclic m1 i n (q_m1 q) /\ cyclic m2 i n (q_m2 q).
  Proof.
    intros fuel scheme k d g e g1 m1 g2 m2 g3 o g4 n EP T M Se S1 S2 So EN N i F.
    rewrite (samples_ok fuel scheme k d g e g1 m1 g2 m2 g3 o g4 EP T Se S1 S2 So). rewrite EN.
    cbv zeta. fold i. assert (0 <? n = true) as -> by (apply Nat.ltb_lt; lia).
    pose proof (proj2 (column_or_ok _ _ _ _ _ _ T Se)) as Le.
    pose proof (proj2 (column_or_ok _ _ _ _ _ _ T S1)) as L1.
    pose proof (proj2 (column_or_ok _ _ _ _ _ _ T S2)) as L2.
    assert (length o = n_rows d) as Lo.
    { destruct So as [[_ So] | [_ So]]; exact (proj2 (column_or_ok _ _ _ _ _ _ T So)). }
    destruct (double_quad_ok (n_rows d) o e m1 m2 M Lo Le L1 L2 fuel (i + n) o e m1 m2)
      as (q & -> & C1 & C2 & C3 & C4 & B & B2 & B3 & B4);
      try apply copies_self; try congruence; [lia|].
    eexists. split; [reflexivity|]. cbn [q_orbit q_ecc q_m1 q_m2].
    split; [apply cyclic_slice; [assumption | lia]|].
    split; [apply cyclic_slice; [assumption | lia]|].
    split; apply cyclic_slice; solve [assumption | lia].
  Qed.

  Lemma samples_stuck : forall fuel scheme k d g e g1 m1 g2 m2 g3 o g4 n,
    k_path k = File d -> table_ok d -> n_rows d = 0 ->
    sourced casefold d ECCENTRICITY_NAMES g_ecc g e g1 ->
    sourced casefold d PRIMARY_MASS_NAMES g_m1 g1 m1 g2 ->
    sourced casefold d SECONDARY_MASS_NAMES (g_m2 m1) g2 m2 g3 ->
    (scheme = Some "separation"%string /\ sourced casefold d SEPARATION_NAMES g_sep g3 o g4 \/
     scheme = Some "period"%string /\ sourced casefold d PERIOD_NAMES (g_per m1) g3 o g4) ->
    k_number k = Some n -> 1 <= n ->
    get_samples_from_file G casefold g_ecc g_m1 g_m2 g_sep g_per fuel scheme k g = None.
  Proof.
    intros fuel scheme k d g e g1 m1 g2 m2 g3 o g4 n EP T M Se S1 S2 So EN N.
    rewrite (samples_ok fuel scheme k d g e g1 m1 g2 m2 g3 o g4 EP T Se S1 S2 So). rewrite EN.
    cbv zeta. assert (0 <? n = true) as -> by (apply Nat.ltb_lt; lia).
    pose proof (proj2 (column_or_ok _ _ _ _ _ _ T Se)) as Le.
    pose proof (proj2 (column_or_ok _ _ _ _ _ _ T S1)) as L1.
    pose proof (proj2 (column_or_ok _ _ _ _ _ _ T S2)) as L2.
    assert (length o = n_rows d) as Lo.
    { destruct So as [[_ So] | [_ So]]; exact (proj2 (column_or_ok _ _ _ _ _ _ T So)). }
    rewrite M in *. apply length_zero_iff_nil in Le, L1, L2, Lo. subst.
    rewrite double_quad_stuck by lia. reflexivity.
  Qed.

  (** Kicks *)
  Lemma kick_column_ok : forall d names, table_ok d ->
    exists l, kick_column casefold d names = Ok l /\ length l = n_rows d /\
      forall r, r < n_rows d -> exists v, nth_error l r = Some v /\ kick_cell casefold d names r v.
  Proof.
    intros d names (ND & NE & LEN). unfold kick_column.
    destruct (infer_key_spec casefold (map fst (columns d)) names) as [R | [U E]].
    - pose proof (resolves_in _ _ _ _ R) as I.
      set (key := infer_key casefold (map fst (columns d)) names) in *.
      destruct (String.eqb key EmptyString) eqn:EK.
      { apply String.eqb_eq in EK. exfalso. apply NE. rewrite <- EK. exact I. }
      apply in_map_iff in I. destruct I as ([k l] & E & I). cbn in E. subst k.
      rewrite (column_in d key l ND I). cbn [rbind]. exists (map Some l). split; [reflexivity|].
      split; [rewrite map_length; apply (LEN key); exact I|].
      intros r B. destruct (nth_error l r) as [x|] eqn:EX.
      2: { apply nth_error_None in EX. rewrite (LEN key l I) in EX. lia. }
      exists (Some x). split; [rewrite nth_map_error, EX; reflexivity|].
      left. exists key, l, x. auto.
    - rewrite E, String.eqb_refl. eexists. split; [reflexivity|]. split; [apply repeat_length|].
      intros r B. exists None. split; [|right; auto].
      rewrite nth_error_nth' with (d := None) by (rewrite repeat_length; exact B).
      rewrite nth_repeat. reflexivity.
  Qed.

  Lemma nth_error_combine : forall A B (a : list A) (b : list B) r x y,
    nth_error a r = Some x -> nth_error b r = Some y -> nth_error (combine a b) r = Some (x, y).
  Proof.
    induction a as [|u a IH]; intros [|v b] [|r] x y H1 H2; cbn in *; try discriminate.
    - congruence.
    - apply IH; assumption.
  Qed.

  Lemma kick_set_ok : forall d n1 n2 n3 n4, table_ok d ->
    exists l, kick_set casefold d n1 n2 n3 n4 = Ok l /\ length l = n_rows d /\
      forall r, r < n_rows d -> exists a b c e, nth_error l r = Some (a, b, c, e) /\
        kick_cell casefold d n1 r a /\ kick_cell casefold d n2 r b /\
        kick_cell casefold d n3 r c /\ kick_cell casefold d n4 r e.
  Proof.
    intros d n1 n2 n3 n4 T. unfold kick_set.
    destruct (kick_column_ok d n1 T) as (w & -> & L1 & P1). cbn [rbind].
    destruct (kick_column_ok d n2 T) as (p & -> & L2 & P2). cbn [rbind].
    destruct (kick_column_ok d n3 T) as (t & -> & L3 & P3). cbn [rbind].
    destruct (kick_column_ok d n4 T) as (m & -> & L4 & P4). cbn [rbind].
    eexists. split; [reflexivity|]. unfold transpose4. split.
    - rewrite map_length, !combine_length. lia.
    - intros r B. destruct (P1 r B) as (a & A1 & A2). destruct (P2 r B) as (b & B1 & B2).
      destruct (P3 r B) as (c & C1 & C2). destruct (P4 r B) as (e & D1 & D2).
      exists a, b, c, e. split; [|auto]. rewrite nth_map_error.
      rewrite (nth_error_combine _ _ _ _ r (a, b, c) e); [reflexivity| |exact D1].
      apply nth_error_combine; [|exact C1]. apply nth_error_combine; assumption.
  Qed.

  Lemma kicks_cyclic : forall fuel k d n, k_path k = File d -> table_ok d -> 1 <= n_rows d ->
    k_number k = Some n ->
    let i := match k_index k with Some i => i | None => 0 end in
    i + n <= fuel ->
    exists a b, get_kick_samples_from_file casefold fuel k = Some (Ok (a, b)) /\
      length a = n /\ length b = n /\
      forall j, j < n -> exists ra rb, nth_error a j = Some ra /\ nth_error b j = Some rb /\
        kick_at casefold d ((i + j) mod n_rows d) 1 ra /\ kick_at casefold d ((i + j) mod n_rows d) 2 rb.
  Proof.
    intros fuel k d n EP T M EN i F. unfold get_kick_samples_from_file. rewrite EP.
    destruct (kick_set_ok d PRIMARY_KICK_VELOCITY_NAMES PRIMARY_KICK_AZIMUTHAL_ANGLE_NAMES
                PRIMARY_KICK_POLAR_ANGLE_NAMES PRIMARY_KICK_MEAN_ANOMALY_NAMES T) as (a0 & -> & La & Pa).
    cbn [bind ret].
    destruct (kick_set_ok d SECONDARY_KICK_VELOCITY_NAMES SECONDARY_KICK_AZIMUTHAL_ANGLE_NAMES
                SECONDARY_KICK_POLAR_ANGLE_NAMES SECONDARY_KICK_MEAN_ANOMALY_NAMES T) as (b0 & -> & Lb & Pb).
    cbn [bind ret]. rewrite EN. fold i.
    destruct (double_kicks_ok (n_rows d) a0 b0 M La Lb fuel (i + n) a0 b0) as (a & b & -> & Ca & Cb & B & B2);
      try apply copies_self; [congruence | lia|].
    exists (slice i n a), (slice i n b). split; [reflexivity|].
    destruct (cyclic_slice _ a0 a i n Ca B) as [LA NA].
    destruct (cyclic_slice _ b0 b i n Cb ltac:(lia)) as [LB NB].
    split; [exact LA|]. split; [exact LB|]. intros j J.
    assert ((i + j) mod n_rows d < n_rows d) as R by (apply Nat.mod_upper_bound; lia).
    destruct (Pa _ R) as (w & p & t & m & E & K). destruct (Pb _ R) as (w' & p' & t' & m' & E' & K').
    exists (w, p, t, m), (w', p', t', m').
    split; [rewrite NA by exact J; rewrite La; exact E|].
    split; [rewrite NB by exact J; rewrite Lb; exact E'|].
    split; assumption.
  Qed.

  Lemma kicks_stuck : forall fuel k d n, k_path k = File d -> table_ok d -> n_rows d = 0 ->
    k_number k = Some n -> 1 <= n -> get_kick_samples_from_file casefold fuel k = None.
  Proof.
    intros fuel k d n EP T M EN N. unfold get_kick_samples_from_file. rewrite EP.
    destruct (kick_set_ok d PRIMARY_KICK_VELOCITY_NAMES PRIMARY_KICK_AZIMUTHAL_ANGLE_NAMES
                PRIMARY_KICK_POLAR_ANGLE_NAMES PRIMARY_KICK_MEAN_ANOMALY_NAMES T) as (a0 & -> & La & Pa).
    cbn [bind ret].
    destruct (kick_set_ok d SECONDARY_KICK_VELOCITY_NAMES SECONDARY_KICK_AZIMUTHAL_ANGLE_NAMES
                SECONDARY_KICK_POLAR_ANGLE_NAMES SECONDARY_KICK_MEAN_ANOMALY_NAMES T) as (b0 & -> & Lb & Pb).
    cbn [bind ret]. rewrite EN. rewrite M in *. apply length_zero_iff_nil in La, Lb. subst.
    rewrite double_kicks_stuck by lia. reflexivity.
  Qed.
End FromFile.
