(** Proofs about the samplers. *)
From Coq Require Import String List ZArith QArith Bool Lia Lqa.
From Verif Require Import PyBase SamplerModel SamplerSpec.
Import ListNotations.
Open Scope nat_scope.

Lemma skip_add : forall G (next : G -> Q * G) a b g,
  skip G next (a + b) g = skip G next b (skip G next a g).
Proof. induction a; intros; [reflexivity | apply IHa]. Qed.

Lemma skip_S : forall G (next : G -> Q * G) a g,
  skip G next (S a) g = snd (next (skip G next a g)).
Proof.
  intros. replace (S a) with (a + 1) by lia. rewrite skip_add. reflexivity.
Qed.

Lemma raws_skip : forall G (next : G -> Q * G) n g,
  snd (raws G next n g) = skip G next n g.
Proof.
  induction n; intros; [reflexivity|]. cbn. specialize (IHn (snd (next g))).
  destruct (next g) as [u g1]. cbn in *. destruct (raws G next n g1). exact IHn.
Qed.

Lemma raws_nth : forall G (next : G -> Q * G) n g i, i < n ->
  nth_error (fst (raws G next n g)) i = Some (fst (next (skip G next i g))).
Proof.
  induction n; intros g i L; [lia|]. cbn.
  specialize (IHn (snd (next g))). destruct (next g) as [u g1] eqn:E. cbn in *.
  destruct (raws G next n g1) as [us g2] eqn:R. cbn.
  destruct i; cbn. { rewrite E. reflexivity. }
  rewrite E. cbn. apply IHn. lia.
Qed.

Lemma raws_length : forall G (next : G -> Q * G) n g, length (fst (raws G next n g)) = n.
Proof.
  induction n; intros; [reflexivity|]. cbn. destruct (next g) as [u g1].
  specialize (IHn g1). destruct (raws G next n g1). cbn in *. congruence.
Qed.

Lemma raws_unit : forall G (next : G -> Q * G), unit_stream next -> forall n g,
  Forall (fun u => 0 <= u /\ u < 1)%Q (fst (raws G next n g)).
Proof.
  induction n; intros; [constructor|]. cbn. specialize (H g). destruct (next g) as [u g1].
  specialize (IHn g1). destruct (raws G next n g1). constructor; assumption.
Qed.

Lemma uniform_skip : forall G (next : G -> Q * G) scale lo hi n g,
  snd (uniform G next scale lo hi n g) = skip G next n g.
Proof.
  intros. unfold uniform. rewrite <- raws_skip. destruct (raws G next n g). reflexivity.
Qed.

Lemma uniform_length : forall G (next : G -> Q * G) scale lo hi n g,
  length (fst (uniform G next scale lo hi n g)) = n.
Proof.
  intros. unfold uniform. pose proof (raws_length G next n g).
  destruct (raws G next n g). cbn in *. rewrite map_length. assumption.
Qed.

Lemma uniform_range : forall G (next : G -> Q * G) scale, unit_stream next -> keeps_limits scale ->
  forall lo hi n g, (lo <= hi)%Q ->
  Forall (fun x => lo <= x /\ x <= hi)%Q (fst (uniform G next scale lo hi n g)).
Proof.
  intros G next scale U K lo hi n g L. unfold uniform. pose proof (raws_unit G next U n g).
  destruct (raws G next n g) as [us g1]. cbn in *. apply Forall_map.
  eapply Forall_impl; [|exact H]. intros u [A B]. apply K; assumption.
Qed.

Lemma accepted_in : forall pdf xs ys x, In x (accepted pdf xs ys) ->
  exists y, In x xs /\ In y ys /\ (y <= pdf x)%Q.
Proof.
  unfold accepted. intros pdf xs ys x H. apply in_map_iff in H. destruct H as ([a y] & <- & F).
  apply filter_In in F. destruct F as [I L]. cbn in *. apply Qle_bool_iff in L.
  exists y. split; [eapply in_combine_l; eauto | split; [eapply in_combine_r; eauto | exact L]].
Qed.

Lemma filter_length_le : forall A (f : A -> bool) l, length (filter f l) <= length l.
Proof. induction l; cbn; [lia|]. destruct (f a); cbn; lia. Qed.

Lemma accepted_length : forall pdf xs ys, length (accepted pdf xs ys) <= length xs.
Proof.
  intros. unfold accepted. rewrite map_length.
  etransitivity; [apply filter_length_le|]. rewrite combine_length. lia.
Qed.

Section Rejection.
  Variable G : Type.
  Variable next : G -> Q * G.
  Variable scale : Q -> Q -> Q -> Q.
  Hypothesis U : unit_stream next.
  Hypothesis K : keeps_limits scale.

  Lemma batch_ok : forall pdf lo hi top n g g', (lo <= hi)%Q -> (0 <= top)%Q ->
    Forall (accepted_at pdf lo hi top)
      (accepted pdf (fst (uniform G next scale lo hi n g)) (fst (uniform G next scale 0 top n g'))).
  Proof.
    intros. apply Forall_forall. intros x I. apply accepted_in in I. destruct I as (y & A & B & C).
    pose proof (uniform_range G next scale U K lo hi n g H) as R1.
    pose proof (uniform_range G next scale U K 0 top n g' H0) as R2.
    rewrite Forall_forall in R1, R2. specialize (R1 _ A). specialize (R2 _ B). cbv beta in R1, R2.
    unfold accepted_at. split; [tauto|]. split; [tauto|]. exists y. tauto.
  Qed.

  Lemma refill_ok : forall fuel pdf lo hi top size values g l g', (lo <= hi)%Q -> (0 <= top)%Q ->
    length values <= size -> Forall (accepted_at pdf lo hi top) values ->
    refill G next scale fuel pdf lo hi top size values g = Some (l, g') ->
    length l = size /\ Forall (accepted_at pdf lo hi top) l /\ exists added, l = values ++ added.
  Proof.
    induction fuel; intros pdf lo hi top size values g l g' L T LE F H; cbn in H.
    - destruct (size <=? length values) eqn:E; [|discriminate]. apply Nat.leb_le in E.
      assert (l = values) as -> by congruence.
      split; [lia|]. split; [assumption|]. exists []. rewrite app_nil_r. reflexivity.
    - destruct (size <=? length values) eqn:E.
      + apply Nat.leb_le in E. assert (l = values) as -> by congruence.
        split; [lia|]. split; [assumption|]. exists []. rewrite app_nil_r. reflexivity.
      + apply Nat.leb_gt in E.
        pose proof (fun g g' => batch_ok pdf lo hi top (size - length values) g g' L T) as B.
        pose proof (uniform_length G next scale lo hi (size - length values) g) as LX.
        destruct (uniform G next scale lo hi (size - length values) g) as [xs g1] eqn:EX.
        specialize (B g g1). rewrite EX in B.
        destruct (uniform G next scale 0 top (size - length values) g1) as [ys g2] eqn:EY.
        cbn in B, LX.
        apply IHfuel in H; try assumption.
        * destruct H as (A1 & A2 & added & ->). split; [assumption|]. split; [assumption|].
          exists (accepted pdf xs ys ++ added). rewrite app_assoc. reflexivity.
        * rewrite app_length. pose proof (accepted_length pdf xs ys). lia.
        * apply Forall_app. split; assumption.
  Qed.

  Lemma qmax_list_ge : forall l x y, In y (x :: l) -> (y <= qmax_list x l)%Q.
  Proof.
    induction l as [|z l IH]; intros x y H.
    - destruct H as [-> | []]. apply Qle_refl.
    - cbn [qmax_list]. destruct (Qle_bool x z) eqn:E.
      + apply Qle_bool_iff in E. destruct H as [-> | H].
        * eapply Qle_trans; [exact E|]. apply IH. left. reflexivity.
        * apply IH. exact H.
      + assert (z < x)%Q as E'.
        { apply Qnot_le_lt. intro C. apply Qle_bool_iff in C. congruence. }
        destruct H as [-> | [-> | H]].
        * apply IH. left. reflexivity.
        * apply Qle_trans with x; [lra|]. apply IH. left. reflexivity.
        * apply IH. right. exact H.
  Qed.

  Lemma qmin_list_le : forall l x y, In y (x :: l) -> (qmin_list x l <= y)%Q.
  Proof.
    induction l as [|z l IH]; intros x y H.
    - destruct H as [-> | []]. apply Qle_refl.
    - cbn [qmin_list]. destruct (Qle_bool z x) eqn:E.
      + apply Qle_bool_iff in E. destruct H as [-> | H].
        * eapply Qle_trans; [|exact E]. apply IH. left. reflexivity.
        * apply IH. exact H.
      + assert (x < z)%Q as E'.
        { apply Qnot_le_lt. intro C. apply Qle_bool_iff in C. congruence. }
        destruct H as [-> | [-> | H]].
        * apply IH. left. reflexivity.
        * apply Qle_trans with x; [|lra]. apply IH. left. reflexivity.
        * apply IH. right. exact H.
  Qed.

  Lemma qmax_in : forall l x, In (qmax_list x l) (x :: l).
  Proof.
    induction l as [|z l IH]; intro x; [left; reflexivity|].
    cbn [qmax_list]. destruct (Qle_bool x z).
    - right. apply IH.
    - destruct (IH x) as [E | I]; [left; exact E | right; right; exact I].
  Qed.

  Lemma qmin_in : forall l x, In (qmin_list x l) (x :: l).
  Proof.
    induction l as [|z l IH]; intro x; [left; reflexivity|].
    cbn [qmin_list]. destruct (Qle_bool z x).
    - right. apply IH.
    - destruct (IH x) as [E | I]; [left; exact E | right; right; exact I].
  Qed.

  Lemma rejection_pdf_ok : forall fuel probes pdf lo hi size g l g', (lo <= hi)%Q ->
    (forall x, 0 <= pdf x)%Q ->
    rejection_pdf G next scale fuel probes pdf lo hi size g = Some (Ok (l, g')) ->
    length l = size /\
    exists top, (exists p, lo <= p /\ p <= hi /\ top = pdf p)%Q /\ Forall (accepted_at pdf lo hi top) l.
  Proof.
    unfold rejection_pdf. intros fuel probes pdf lo hi size g l g' L N H.
    pose proof (uniform_length G next scale lo hi size g) as LX.
    pose proof (fun g' top T => batch_ok pdf lo hi top size g g' L T) as B.
    destruct (uniform G next scale lo hi size g) as [xs g1].
    pose proof (uniform_range G next scale U K lo hi probes g1 L) as R.
    destruct (uniform G next scale lo hi probes g1) as [ps g2]. cbn in R.
    destruct (map pdf ps) as [|p rest] eqn:EP; [discriminate|].
    pose proof (qmax_in rest p) as I. rewrite <- EP in I. apply in_map_iff in I.
    destruct I as (q & EQ & IQ). rewrite Forall_forall in R. specialize (R q IQ). cbv beta in R.
    assert (0 <= qmax_list p rest)%Q as T by (rewrite <- EQ; apply N).
    specialize (B g2 (qmax_list p rest) T).
    destruct (uniform G next scale 0 (qmax_list p rest) size g2) as [ys g3]. cbn in B, LX.
    destruct (refill G next scale fuel pdf lo hi (qmax_list p rest) size (accepted pdf xs ys) g3)
      as [[l' g'']|] eqn:ER; [|discriminate].
    assert (l' = l) as -> by congruence.
    apply refill_ok in ER; try assumption.
    2: { pose proof (accepted_length pdf xs ys). lia. }
    split; [tauto|]. exists (qmax_list p rest). split; [|tauto].
    exists q. split; [tauto|]. split; [tauto|]. congruence.
  Qed.

  Lemma rejection_xy_ok : forall fuel pdf xs ys size g l g',
    rejection_xy G next scale fuel pdf xs ys size g = Some (Ok (l, g')) ->
    length l = size /\
    exists lo hi top, In lo xs /\ In hi xs /\ In top ys /\
      (forall x, In x xs -> lo <= x /\ x <= hi)%Q /\ (forall y, In y ys -> 0 <= y /\ y <= top)%Q /\
      Forall (accepted_at pdf lo hi top) l.
  Proof.
    unfold rejection_xy. intros fuel pdf xs ys size g l g' H.
    destruct (forallb (fun y => Qle_bool 0 y) ys) eqn:EA; cbn [negb] in H; [|discriminate].
    destruct xs as [|x xs]; [discriminate|]. destruct ys as [|y ys]; [discriminate|].
    set (lo := qmin_list x xs) in *. set (hi := qmax_list x xs) in *. set (top := qmax_list y ys) in *.
    assert (forall v, In v (x :: xs) -> lo <= v /\ v <= hi)%Q as RX.
    { intros v I. split; [apply qmin_list_le | apply qmax_list_ge]; exact I. }
    assert (lo <= hi)%Q as L.
    { eapply Qle_trans; [apply (RX x); left; reflexivity | apply RX; left; reflexivity]. }
    assert (forall v, In v (y :: ys) -> 0 <= v /\ v <= top)%Q as RY.
    { intros v I. split; [|apply qmax_list_ge; exact I].
      rewrite forallb_forall in EA. apply Qle_bool_iff. apply EA. exact I. }
    assert (0 <= top)%Q as T.
    { destruct (RY y (or_introl eq_refl)). eapply Qle_trans; eauto. }
    pose proof (uniform_length G next scale lo hi size g) as LX.
    pose proof (fun g' => batch_ok pdf lo hi top size g g' L T) as B.
    destruct (uniform G next scale lo hi size g) as [xr g1]. specialize (B g1).
    destruct (uniform G next scale 0 top size g1) as [yr g2]. cbn in B, LX.
    destruct (refill G next scale fuel pdf lo hi top size (accepted pdf xr yr) g2)
      as [[l' g'']|] eqn:ER; [|discriminate].
    assert (l' = l) as -> by congruence.
    apply refill_ok in ER; try assumption.
    2: { pose proof (accepted_length pdf xr yr). lia. }
    split; [tauto|]. exists lo, hi, top.
    split; [apply qmin_in|]. split; [apply qmax_in|]. split; [apply qmax_in|]. tauto.
  Qed.

  (** A density that is below every height that can be drawn is never accepted. *)
  Lemma refill_stuck : forall fuel pdf lo hi top size values g, (lo <= hi)%Q -> (0 <= top)%Q ->
    (forall x, lo <= x -> x <= hi -> pdf x < 0)%Q -> length values < size ->
    refill G next scale fuel pdf lo hi top size values g = None.
  Proof.
    induction fuel; intros pdf lo hi top size values g L T N LE; cbn;
      (destruct (size <=? length values) eqn:E; [apply Nat.leb_le in E; lia|]); [reflexivity|].
    pose proof (fun g g' => batch_ok pdf lo hi top (size - length values) g g' L T) as B.
    destruct (uniform G next scale lo hi (size - length values) g) as [xs g1] eqn:EX.
    specialize (B g g1). rewrite EX in B.
    destruct (uniform G next scale 0 top (size - length values) g1) as [ys g2]. cbn [fst] in B.
    assert (accepted pdf xs ys = []) as ->.
    { destruct (accepted pdf xs ys) as [|x l]; [reflexivity|]. apply Forall_inv in B.
      destruct B as (A & C & y & Y1 & Y2 & Y3). specialize (N x A C). exfalso. lra. }
    rewrite app_nil_r. apply IHfuel; assumption.
  Qed.
End Rejection.

Section Histogram.
  Variable G : Type.
  Variable next : G -> Q * G.
  Variable scale : Q -> Q -> Q -> Q.
  Hypothesis U : unit_stream next.
  Hypothesis K : keeps_limits scale.

  Lemma qsum_app1 : forall y l, qsum (y :: l) = (y + qsum l)%Q.
  Proof. reflexivity. Qed.

  Lemma pick_ok : forall ys acc target i, (acc <= target)%Q -> (target < acc + qsum ys)%Q ->
    Forall (fun y => 0 <= y)%Q ys ->
    exists k w, pick acc target i ys = i + k /\ nth_error ys k = Some w /\ (0 < w)%Q.
  Proof.
    induction ys as [|y ys IH]; intros acc target i A B F.
    - unfold qsum in B. cbn in B. exfalso. lra.
    - rewrite qsum_app1 in B. inversion F; subst. cbn [pick].
      destruct (Qle_bool (acc + y) target) eqn:E; cbn [negb].
      + apply Qle_bool_iff in E. destruct (IH (acc + y)%Q target (S i)) as (k & w & P & N & W);
          [assumption | lra | assumption|].
        exists (S k), w. split; [lia|]. split; assumption.
      + exists 0, y. split; [lia|]. split; [reflexivity|].
        destruct (Qlt_le_dec target (acc + y)) as [L|L]; [lra|].
        apply Qle_bool_iff in L. congruence.
  Qed.

  Definition cell_ok (edges : list Q) (filled : list nat) (c : nat) (s : option Q) :=
    match s with
    | Some v => exists lo hi, nth_error edges c = Some lo /\ nth_error edges (S c) = Some hi /\
                              (lo <= v /\ v <= hi)%Q
    | None => ~ In c filled
    end.

  Lemma fill_bin_ok : forall edges filled b lo hi bins sample vals,
    nth_error edges b = Some lo -> nth_error edges (S b) = Some hi ->
    Forall2 (cell_ok edges filled) bins sample ->
    Forall (fun v => lo <= v /\ v <= hi)%Q vals -> length vals = count_occ Nat.eq_dec bins b ->
    Forall2 (cell_ok edges (b :: filled)) bins (fill_bin b bins sample vals).
  Proof.
    intros edges filled b lo hi bins sample vals EL EH F. revert vals.
    induction F as [|c s bins sample C F IH]; intros vals R L; [constructor|].
    cbn [fill_bin]. cbn [count_occ] in L.
    destruct (Nat.eqb c b) eqn:E.
    - apply Nat.eqb_eq in E. subst c. destruct (Nat.eq_dec b b); [|congruence].
      destruct vals as [|v vals]; [discriminate|]. inversion R; subst. constructor.
      + exists lo, hi. tauto.
      + apply IH; [assumption | cbn in L; lia].
    - apply Nat.eqb_neq in E. destruct (Nat.eq_dec c b); [congruence|]. constructor.
      + destruct s; [exact C|]. cbn in *. intros [X|X]; [congruence | tauto].
      + apply IH; assumption.
  Qed.

  Lemma fill_bins_ok : forall edges bins, increasing_edges edges ->
    forall order filled sample g, Forall (fun b => S b < length edges) order ->
    Forall2 (cell_ok edges filled) bins sample ->
    exists sample' g', fill_bins G next scale edges order bins sample g = Ok (sample', g') /\
      Forall2 (cell_ok edges (rev order ++ filled)) bins sample'.
  Proof.
    intros edges bins I order. induction order as [|b order IH]; intros filled sample g B F.
    - exists sample, g. split; [reflexivity | exact F].
    - inversion B; subst. cbn [fill_bins].
      destruct (nth_error edges b) as [lo|] eqn:EL.
      2: { apply nth_error_None in EL. lia. }
      destruct (nth_error edges (S b)) as [hi|] eqn:EH.
      2: { apply nth_error_None in EH. lia. }
      pose proof (I b lo hi EL EH) as LE.
      pose proof (uniform_range G next scale U K lo hi (count_occ Nat.eq_dec bins b) g LE) as R.
      pose proof (uniform_length G next scale lo hi (count_occ Nat.eq_dec bins b) g) as LN.
      destruct (uniform G next scale lo hi (count_occ Nat.eq_dec bins b) g) as [vs g1]. cbn in R, LN.
      pose proof (fill_bin_ok edges filled b lo hi bins sample vs EL EH F R LN) as F'.
      destruct (IH (b :: filled) _ g1 H2 F') as (s' & g' & E & F2).
      exists s', g'. split; [exact E|]. cbn [rev]. rewrite <- app_assoc. exact F2.
  Qed.

  Lemma all_some_ok : forall edges filled bins sample, (forall c, In c bins -> In c filled) ->
    Forall2 (cell_ok edges filled) bins sample ->
    exists r, all_some sample = Some r /\
      Forall2 (fun c v => exists lo hi, nth_error edges c = Some lo /\ nth_error edges (S c) = Some hi /\
                              (lo <= v /\ v <= hi)%Q) bins r.
  Proof.
    intros edges filled bins sample A F. induction F as [|c s bins sample C F IH].
    - exists []. split; [reflexivity | constructor].
    - destruct s as [v|].
      + destruct IH as (r & E & F2). { intros; apply A; right; assumption. }
        exists (v :: r). cbn. rewrite E. split; [reflexivity|]. constructor; [exact C | exact F2].
      + cbn in C. exfalso. apply C. apply A. left. reflexivity.
  Qed.

  Lemma forallb_nonneg : forall ys, forallb (fun y => Qle_bool 0 y) ys = true <-> Forall (fun y => 0 <= y)%Q ys.
  Proof.
    intros. rewrite forallb_forall, Forall_forall. split; intros H x I; apply Qle_bool_iff; auto.
  Qed.

  Lemma qsum_nonneg : forall ys, Forall (fun y => 0 <= y)%Q ys -> (0 <= qsum ys)%Q.
  Proof.
    induction 1; [apply Qle_refl|]. rewrite qsum_app1. lra.
  Qed.

  Lemma choice_ok : forall ys n g, Forall (fun y => 0 <= y)%Q ys -> ~ (qsum ys == 0)%Q ->
    length (fst (choice G next ys n g)) = n /\
    Forall (fun b => exists w, nth_error ys b = Some w /\ 0 < w)%Q (fst (choice G next ys n g)).
  Proof.
    intros ys n g F N. unfold choice. pose proof (raws_length G next n g) as L.
    pose proof (raws_unit G next U n g) as R. destruct (raws G next n g) as [us g1]. cbn in *.
    split; [rewrite map_length; exact L|]. apply Forall_map. eapply Forall_impl; [|exact R].
    intros u [A B]. cbv beta.
    assert (0 < qsum ys)%Q as P.
    { pose proof (qsum_nonneg ys F). destruct (Qlt_le_dec 0 (qsum ys)); [assumption|].
      exfalso. apply N. apply Qle_antisym; assumption. }
    destruct (pick_ok ys 0 (u * qsum ys)%Q 0) as (k & w & E & X & W).
    - apply Qmult_le_0_compat; lra.
    - setoid_replace (0 + qsum ys)%Q with (1 * qsum ys)%Q by ring.
      apply Qmult_lt_compat_r; assumption.
    - assumption.
    - exists w. rewrite E. split; assumption.
  Qed.

  Lemma histogram_ok : forall order edges ys size g,
    (forall l c, In c (order l) <-> In c l) -> increasing_edges edges ->
    Forall (fun y => 0 <= y)%Q ys -> ~ (qsum ys == 0)%Q -> length edges = length ys + 1 ->
    exists l g', histogram_sampler G next scale order edges ys size g =
        Ok (match l with [x] => Scalar x | _ => Array l end, g') /\
      length l = size /\ Forall (in_heavy_bin edges ys) l.
  Proof.
    intros order edges ys size g O I F N L. unfold histogram_sampler.
    rewrite (proj2 (forallb_nonneg ys) F). cbn [negb].
    assert (0 < length ys) as P.
    { destruct ys; [exfalso; apply N; reflexivity | cbn; lia]. }
    apply Nat.ltb_lt in P. rewrite P. rewrite (proj2 (Nat.eqb_eq _ _) L). cbn [andb negb].
    destruct (Qeq_bool (qsum ys) 0) eqn:Z; [apply Qeq_bool_iff in Z; contradiction|].
    destruct (choice_ok ys size g F N) as [CL CF].
    destruct (choice G next ys size g) as [bins g1]. cbn in CL, CF.
    destruct (fill_bins_ok edges bins I (order bins) [] (repeat None size) g1) as (s & g' & E & F2).
    - apply Forall_forall. intros b B. apply (proj1 (O bins b)) in B. rewrite Forall_forall in CF.
      destruct (CF b B) as (w & X & _). assert (b < length ys) by (apply nth_error_Some; congruence). lia.
    - rewrite <- CL. clear. induction bins; cbn; constructor; [intro X; exact X | assumption].
    - rewrite E. rewrite app_nil_r in F2.
      destruct (all_some_ok edges (rev (order bins)) bins s) as (r & ER & F3).
      + intros c C. apply in_rev. rewrite rev_involutive. apply (proj2 (O bins c)). exact C.
      + exact F2.
      + rewrite ER. exists r, g'. split; [reflexivity|]. split.
        * rewrite <- CL. symmetry. clear -F3. induction F3; cbn; congruence.
        * clear -F3 CF. induction F3 as [|c v bins r (lo & hi & A & B & D) F3 IH]; [constructor|].
          inversion CF; subst. destruct H1 as (w & X & W). constructor; [|apply IH; assumption].
          exists c, lo, hi, w. tauto.
  Qed.
End Histogram.
