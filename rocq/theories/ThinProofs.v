(** The samplers use each raw number at most once; exactly what is returned. *)
From Coq Require Import String List ZArith QArith Bool Lia Lqa.
From Verif Require Import PyBase PyList SamplerModel SamplerSpec SamplerProofs.
Import ListNotations.
Open Scope nat_scope.

Lemma raw_at_skip : forall G (next : G -> Q * G) k g, raw_at next g k = fst (next (skip G next k g)).
Proof. induction k; intro g; [reflexivity|]. apply IHk. Qed.

Lemma raws_at : forall G (next : G -> Q * G) g n k,
  fst (raws G next n (skip G next k g)) = map (raw_at next g) (seq k n).
Proof.
  intros. apply nth_ext_error. intro i. destruct (Nat.lt_ge_cases i n) as [L|L].
  - rewrite raws_nth by exact L. rewrite nth_map_error, nth_seq_error by exact L. cbn.
    rewrite raw_at_skip, skip_add. reflexivity.
  - rewrite (proj2 (nth_error_None _ i)) by (rewrite raws_length; lia).
    symmetry. apply nth_error_None. rewrite map_length, seq_length. lia.
Qed.

Lemma uniform_at : forall G (next : G -> Q * G) scale lo hi n k g,
  uniform G next scale lo hi n (skip G next k g) =
  (map (fun i => scale lo hi (raw_at next g i)) (seq k n), skip G next (k + n) g).
Proof.
  intros. rewrite skip_add, <- (uniform_skip G next scale lo hi n).
  pose proof (raws_at G next g n k) as R. unfold uniform.
  destruct (raws G next n (skip G next k g)) as [us g1]. cbn in *. subst us.
  rewrite map_map. reflexivity.
Qed.

Lemma accepted_map : forall (fx fy : nat -> Q) pdf a b,
  accepted pdf (map fx a) (map fy b) =
  map (fun p => fx (fst p)) (filter (fun p => Qle_bool (fy (snd p)) (pdf (fx (fst p)))) (combine a b)).
Proof.
  intros fx fy pdf. unfold accepted. induction a as [|x a IH]; intros [|y b]; try reflexivity.
  cbn. destruct (Qle_bool (fy y) (pdf (fx x))); cbn; rewrite IH; reflexivity.
Qed.

Lemma map_fst_combine : forall A B (a : list A) (b : list B), length a = length b -> map fst (combine a b) = a.
Proof. induction a; intros [|y b] L; try discriminate; [reflexivity|]. cbn in *. rewrite IHa by lia. reflexivity. Qed.
Lemma map_snd_combine : forall A B (a : list A) (b : list B), length a = length b -> map snd (combine a b) = b.
Proof. induction a; intros [|y b] L; try discriminate; [reflexivity|]. cbn in *. rewrite IHa by lia. reflexivity. Qed.

Definition positions (p : list (nat * nat)) := map fst p ++ map snd p.

Lemma positions_in : forall p i, In i (positions p) <-> In i (map fst p) \/ In i (map snd p).
Proof. intros. unfold positions. apply in_app_iff. Qed.

Lemma nodup_app : forall A (l1 l2 : list A), NoDup l1 -> NoDup l2 -> (forall x, In x l1 -> ~ In x l2) -> NoDup (l1 ++ l2).
Proof.
  induction l1 as [|x l1 IH]; intros l2 N1 N2 D; [exact N2|]. inversion N1; subst. cbn. constructor.
  - rewrite in_app_iff. intros [I|I]; [contradiction|]. apply (D x); [left; reflexivity | exact I].
  - apply IH; [assumption | assumption|]. intros y I. apply D. right. exact I.
Qed.

Lemma nodup_app_inv : forall A (l1 l2 : list A), NoDup (l1 ++ l2) ->
  NoDup l1 /\ NoDup l2 /\ (forall x, In x l1 -> ~ In x l2).
Proof.
  induction l1 as [|x l1 IH]; intros l2 N; [split; [constructor|]; split; [exact N | intros x []]|].
  cbn in N. inversion N as [|? ? X N']; subst. destruct (IH _ N') as (A1 & A2 & A3).
  rewrite in_app_iff in X. split; [constructor; tauto|]. split; [exact A2|].
  intros y [-> |I]; [tauto | apply A3; exact I].
Qed.

Lemma positions_app : forall p q, NoDup (positions p) -> NoDup (positions q) ->
  (forall i, In i (positions p) -> ~ In i (positions q)) -> NoDup (positions (p ++ q)).
Proof.
  unfold positions. intros p q NP NQ D. rewrite !map_app.
  apply nodup_app_inv in NP. apply nodup_app_inv in NQ.
  destruct NP as (P1 & P2 & P3), NQ as (Q1 & Q2 & Q3).
  assert (forall i, In i (map fst p) \/ In i (map snd p) -> ~ (In i (map fst q) \/ In i (map snd q))) as D'.
  { intros i. rewrite <- !in_app_iff. apply D. }
  apply nodup_app.
  - apply nodup_app; [assumption | assumption|]. intros i A B. apply (D' i); tauto.
  - apply nodup_app; [assumption | assumption|]. intros i A B. apply (D' i); tauto.
  - intros i A B. apply in_app_iff in A. apply in_app_iff in B.
    destruct A as [A|A], B as [B|B]; try (apply (D' i); tauto); [apply (P3 i A B) | apply (Q3 i A B)].
Qed.

Lemma round_nodup : forall a b n, a + n <= b -> NoDup (positions (combine (seq a n) (seq b n))).
Proof.
  intros. unfold positions. rewrite map_fst_combine, map_snd_combine by (rewrite !seq_length; reflexivity).
  apply nodup_app; try apply seq_NoDup. intros i A B. apply in_seq in A. apply in_seq in B. lia.
Qed.

Lemma round_in : forall a b n i, In i (positions (combine (seq a n) (seq b n))) ->
  (a <= i < a + n) \/ (b <= i < b + n).
Proof.
  intros a b n i. rewrite positions_in.
  rewrite map_fst_combine, map_snd_combine by (rewrite !seq_length; reflexivity). rewrite !in_seq. tauto.
Qed.

Lemma round_length : forall a b n, length (combine (seq a n) (seq b n)) = n.
Proof. intros. rewrite combine_length, !seq_length. lia. Qed.

Section Thin.
  Variable G : Type.
  Variable next : G -> Q * G.
  Variable scale : Q -> Q -> Q -> Q.
  Variable g0 : G.

  Lemma refill_thin : forall pdf lo hi top size fuel k proposals values l g',
    thinned next scale g0 pdf lo hi top proposals values ->
    (forall i, In i (positions proposals) -> i < k) ->
    refill G next scale fuel pdf lo hi top size values (skip G next k g0) = Some (l, g') ->
    exists more, thinned next scale g0 pdf lo hi top (proposals ++ more) l /\
      (forall i, In i (positions more) -> k <= i < k + 2 * length more) /\
      g' = skip G next (k + 2 * length more) g0.
  Proof.
    intros pdf lo hi top size. induction fuel; intros k proposals values l g' T B H; cbn [refill] in H.
    - destruct (size <=? length values); [|discriminate].
      assert (l = values) as -> by congruence. assert (g' = skip G next k g0) as -> by congruence.
      exists []. rewrite app_nil_r. split; [exact T|]. split; [intros i []|].
      cbn [length]. rewrite Nat.mul_0_r, Nat.add_0_r. reflexivity.
    - destruct (size <=? length values).
      { assert (l = values) as -> by congruence. assert (g' = skip G next k g0) as -> by congruence.
        exists []. rewrite app_nil_r. split; [exact T|]. split; [intros i []|].
        cbn [length]. rewrite Nat.mul_0_r, Nat.add_0_r. reflexivity. }
      set (n := size - length values) in *.
      rewrite uniform_at in H. cbv iota in H. rewrite uniform_at in H. cbv iota in H.
      rewrite accepted_map in H.
      set (rnd := combine (seq k n) (seq (k + n) n)) in *.
      assert (length rnd = n) as LR by apply round_length.
      apply (IHfuel (k + n + n) (proposals ++ rnd)) in H.
      + destruct H as (more & T' & B' & E). exists (rnd ++ more). rewrite app_assoc. split; [exact T'|].
        rewrite app_length, LR. split.
        * intros i I. rewrite positions_in, !map_app, !in_app_iff in I.
          assert (In i (positions rnd) \/ In i (positions more)) as [J|J] by (rewrite !positions_in; tauto).
          -- apply round_in in J. lia.
          -- apply B' in J. lia.
        * rewrite E. f_equal. lia.
      + destruct T as (ND & E). split.
        * apply positions_app; [exact ND | apply round_nodup; lia|].
          intros i A C. apply B in A. apply round_in in C. lia.
        * rewrite filter_app, map_app, <- E. reflexivity.
      + intros i I. rewrite positions_in, !map_app, !in_app_iff in I.
        assert (In i (positions proposals) \/ In i (positions rnd)) as [J|J] by (rewrite !positions_in; tauto).
        * apply B in J. lia.
        * apply round_in in J. lia.
  Qed.

  Lemma first_thin : forall pdf lo hi top a b n, a + n <= b ->
    thinned next scale g0 pdf lo hi top (combine (seq a n) (seq b n))
      (accepted pdf (map (fun i => scale lo hi (raw_at next g0 i)) (seq a n))
                    (map (fun i => scale 0 top (raw_at next g0 i)) (seq b n))).
  Proof.
    intros. split; [apply round_nodup; assumption|]. rewrite accepted_map. reflexivity.
  Qed.

  Lemma rejection_pdf_thin : forall fuel probes pdf lo hi size l g',
    rejection_pdf G next scale fuel probes pdf lo hi size g0 = Some (Ok (l, g')) ->
    exists p rest proposals,
      map (fun k => pdf (scale lo hi (raw_at next g0 k))) (seq size probes) = p :: rest /\
      thinned next scale g0 pdf lo hi (qmax_list p rest) proposals l /\
      (forall i, In i (positions proposals) -> i < size \/ size + probes <= i < probes + 2 * length proposals) /\
      g' = skip G next (probes + 2 * length proposals) g0.
  Proof.
    unfold rejection_pdf. intros fuel probes pdf lo hi size l g' H.
    change g0 with (skip G next 0 g0) in H. rewrite uniform_at in H. cbv iota in H.
    rewrite uniform_at in H. cbv iota in H. rewrite map_map in H. cbn [plus] in H.
    destruct (map (fun x => pdf (scale lo hi (raw_at next g0 x))) (seq size probes)) as [|p rest] eqn:EP; [discriminate|].
    rewrite uniform_at in H. cbv iota in H.
    destruct (refill _ _ _ _ _ _ _ _ _ _ _) as [r|] eqn:ER; [|discriminate].
    assert (r = (l, g')) as -> by congruence. clear H.
    eapply refill_thin in ER; [|apply first_thin; lia|].
    2: { intros i I. apply round_in in I. lia. }
    destruct ER as (more & T & B & E).
    exists p, rest, (combine (seq 0 size) (seq (size + probes) size) ++ more).
    split; [reflexivity|]. split; [exact T|]. rewrite app_length, round_length. split.
    - intros i I. rewrite positions_in, !map_app, !in_app_iff in I.
      assert (In i (positions (combine (seq 0 size) (seq (size + probes) size))) \/ In i (positions more)) as [J|J]
        by (rewrite !positions_in; tauto).
      + apply round_in in J. lia.
      + apply B in J. lia.
    - rewrite E. f_equal. lia.
  Qed.

  Lemma rejection_xy_thin : forall fuel pdf xs ys size l g',
    rejection_xy G next scale fuel pdf xs ys size g0 = Some (Ok (l, g')) ->
    exists x xs' y ys' proposals, xs = x :: xs' /\ ys = y :: ys' /\
      thinned next scale g0 pdf (qmin_list x xs') (qmax_list x xs') (qmax_list y ys') proposals l /\
      (forall i, In i (positions proposals) -> i < 2 * length proposals) /\
      g' = skip G next (2 * length proposals) g0.
  Proof.
    unfold rejection_xy. intros fuel pdf xs ys size l g' H.
    destruct (negb _); [discriminate|].
    destruct xs as [|x xs]; [discriminate|]. destruct ys as [|y ys]; [discriminate|].
    change g0 with (skip G next 0 g0) in H. rewrite uniform_at in H. cbv iota in H.
    rewrite uniform_at in H. cbv iota in H. cbn [plus] in H.
    destruct (refill _ _ _ _ _ _ _ _ _ _ _) as [r|] eqn:ER; [|discriminate].
    assert (r = (l, g')) as -> by congruence. clear H.
    eapply refill_thin in ER; [|apply first_thin; lia|].
    2: { intros i I. apply round_in in I. lia. }
    destruct ER as (more & T & B & E).
    exists x, xs, y, ys, (combine (seq 0 size) (seq size size) ++ more).
    split; [reflexivity|]. split; [reflexivity|]. split; [exact T|]. rewrite app_length, round_length. split.
    - intros i I. rewrite positions_in, !map_app, !in_app_iff in I.
      assert (In i (positions (combine (seq 0 size) (seq size size))) \/ In i (positions more)) as [J|J]
        by (rewrite !positions_in; tauto).
      + apply round_in in J. lia.
      + apply B in J. lia.
    - rewrite E. f_equal. lia.
  Qed.

  (** The number of proposals is at least the number of values. *)
  Lemma thinned_length : forall pdf lo hi top proposals l,
    thinned next scale g0 pdf lo hi top proposals l -> length l <= length proposals.
  Proof. intros pdf lo hi top proposals l (_ & ->). rewrite map_length. apply filter_length_le. Qed.
End Thin.
