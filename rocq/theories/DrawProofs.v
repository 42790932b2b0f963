(** Proofs about secondary masses, single stars and the order of random draws. *)
From Coq Require Import String List ZArith QArith Bool Lia Lqa.
From Verif Require Import PyBase PyNum PyList SamplerModel SamplerSpec SamplerProofs SampleModel SampleSpec
  SampleProofs.
Import ListNotations.
Open Scope nat_scope.
Open Scope list_scope.

Lemma skip_iter : forall G (next : G -> Q * G) n g,
  skip G next n g = Nat.iter n (fun x => snd (next x)) g.
Proof.
  induction n; intro g; [reflexivity|]. rewrite skip_S, IHn. reflexivity.
Qed.

Lemma bind_ok : forall A B (x : run A) (f : A -> run B) b, bind x f = Some (Ok b) ->
  exists a, x = Some (Ok a) /\ f a = Some (Ok b).
Proof.
  intros A B [[a|e]|] f b H; cbn in H; try discriminate. exists a. auto.
Qed.

(** ** Secondary masses *)

Lemma qle_bool_false : forall a b, Qle_bool a b = false <-> (b < a)%Q.
Proof.
  intros. split.
  - intro H. apply Qnot_le_lt. intro C. apply Qle_bool_iff in C. congruence.
  - intro H. destruct (Qle_bool a b) eqn:E; [|reflexivity]. apply Qle_bool_iff in E. exfalso. lra.
Qed.

Lemma qmax_spec : forall a b, (a <= qmax a b /\ b <= qmax a b)%Q /\ (qmax a b = a \/ qmax a b = b).
Proof.
  intros. unfold qmax. destruct (Qle_bool a b) eqn:E.
  - apply Qle_bool_iff in E. split; [split; [exact E | apply Qle_refl] | right; reflexivity].
  - apply qle_bool_false in E. split; [split; lra | left; reflexivity].
Qed.

Lemma qmin_spec : forall a b, (qmin a b <= a /\ qmin a b <= b)%Q /\ (qmin a b = a \/ qmin a b = b).
Proof.
  intros. unfold qmin. destruct (Qle_bool a b) eqn:E.
  - apply Qle_bool_iff in E. split; [split; [apply Qle_refl | exact E] | left; reflexivity].
  - apply qle_bool_false in E. split; [split; lra | right; reflexivity].
Qed.

Lemma flat_ok_iff : forall a b, flat_mass_ratio_ok a b = true <->
  (0 <= a /\ a < 1 /\ 0 < b /\ b <= 1 /\ a < b)%Q.
Proof.
  intros. unfold flat_mass_ratio_ok. rewrite !andb_true_iff, !negb_true_iff, !qle_bool_false, !Qle_bool_iff.
  tauto.
Qed.

Section Secondary.
  Variable G : Type.
  Variable next : G -> Q * G.
  Variable scale : Q -> Q -> Q -> Q.
  Variable fdiv fmul : Q -> Q -> Q.
  Hypothesis U : unit_stream next.
  Hypothesis K : keeps_limits scale.

  (** One random number per primary mass. *)
  Lemma flat_skip : forall smin smax m1 g l g',
    flat_secondaries G next scale fdiv fmul smin smax m1 g = Ok (l, g') ->
    g' = skip G next (length m1) g /\ length l = length m1.
  Proof using Type.
    intros smin smax. induction m1 as [|m m1 IH]; intros g l g' H.
    - cbn in H. assert (l = []) as -> by congruence. assert (g' = g) as -> by congruence. split; reflexivity.
    - cbn [flat_secondaries] in H.
      destruct (flat_mass_ratio_ok (qmax (fdiv smin m) 0) (qmin (fdiv smax m) 1)); [|discriminate].
      cbn [length skip]. destruct (next g) as [u g1]. cbn [snd].
      destruct (flat_secondaries G next scale fdiv fmul smin smax m1 g1) as [[l' g2]|] eqn:E; [|discriminate].
      cbn [rbind] in H. specialize (IH g1 l' g2 E).
      assert (g' = g2) as -> by congruence.
      assert (l = fmul m (scale (qmax (fdiv smin m) 0) (qmin (fdiv smax m) 1) u) :: l') as -> by congruence.
      cbn [length]. destruct IH. split; congruence.
  Qed.

  Section Bounds.
    Variable eps : Q.
    Variable rnd : Q -> Q.
    Hypothesis E0 : (0 <= eps /\ eps < 1)%Q.
    Hypothesis R : rounds eps rnd.
    Hypothesis DIV : forall a b, (fdiv a b == rnd (a / b))%Q.
    Hypothesis MUL : forall a b, (fmul a b == rnd (a * b))%Q.

    Lemma one_bound : forall smin smax m u, (0 <= smin)%Q -> (0 <= smax)%Q -> (0 < m)%Q -> (rnd m == m)%Q ->
      (0 <= u /\ u < 1)%Q ->
      flat_mass_ratio_ok (qmax (fdiv smin m) 0) (qmin (fdiv smax m) 1) = true ->
      let m2 := fmul m (scale (qmax (fdiv smin m) 0) (qmin (fdiv smax m) 1) u) in
      ((1 - eps) * (1 - eps) * smin <= m2 /\ m2 <= m /\ m2 <= (1 + eps) * (1 + eps) * smax)%Q.
    Proof.
      intros smin smax m u Hs Hx Hm Rm Hu OK m2. destruct R as [MON ACC].
      apply flat_ok_iff in OK. destruct OK as (A0 & A1 & B0 & B1 & AB).
      set (a := qmax (fdiv smin m) 0) in *. set (b := qmin (fdiv smax m) 1) in *.
      destruct (K a b u ltac:(lra) (proj1 Hu) (proj2 Hu)) as [QL QH]. set (q := scale a b u) in *.
      assert (0 <= m * q)%Q as MQ by (apply Qmult_le_0_compat; lra).
      assert (m2 == rnd (m * q))%Q as EM by (apply MUL).
      destruct (ACC (m * q)%Q MQ) as [L1 L2].
      assert (0 <= smin / m)%Q as D0.
      { apply Qle_shift_div_l; lra. }
      assert (0 <= smax / m)%Q as D1.
      { apply Qle_shift_div_l; lra. }
      assert ((1 - eps) * (smin / m) <= q)%Q as QA.
      { destruct (ACC _ D0) as [X _]. destruct (proj1 (qmax_spec (fdiv smin m) 0)) as [Y _].
        fold a in Y. rewrite DIV in Y. lra. }
      assert (q <= (1 + eps) * (smax / m))%Q as QB.
      { destruct (ACC _ D1) as [_ X]. destruct (proj1 (qmin_spec (fdiv smax m) 1)) as [Y _].
        fold b in Y. rewrite DIV in Y. lra. }
      assert (smin / m * m == smin)%Q as C1 by (field; lra).
      assert (smax / m * m == smax)%Q as C2 by (field; lra).
      set (x := (smin / m)%Q) in *. set (y := (smax / m)%Q) in *.
      split; [|split].
      - rewrite EM.
        apply Qle_trans with ((1 - eps) * (m * q))%Q; [|exact L1].
        rewrite <- C1.
        setoid_replace ((1 - eps) * (1 - eps) * (x * m))%Q with ((1 - eps) * (m * ((1 - eps) * x)))%Q by ring.
        rewrite (Qmult_comm (1 - eps) (m * ((1 - eps) * x))), (Qmult_comm (1 - eps) (m * q)).
        apply Qmult_le_compat_r; [|lra].
        rewrite (Qmult_comm m), (Qmult_comm m). apply Qmult_le_compat_r; lra.
      - rewrite EM. rewrite <- Rm at 2. apply MON.
        setoid_replace m with (1 * m)%Q at 2 by ring. rewrite (Qmult_comm m q).
        apply Qmult_le_compat_r; lra.
      - rewrite EM.
        apply Qle_trans with ((1 + eps) * (m * q))%Q; [exact L2|].
        rewrite <- C2.
        setoid_replace ((1 + eps) * (1 + eps) * (y * m))%Q with ((1 + eps) * (m * ((1 + eps) * y)))%Q by ring.
        rewrite (Qmult_comm (1 + eps) (m * ((1 + eps) * y))), (Qmult_comm (1 + eps) (m * q)).
        apply Qmult_le_compat_r; [|lra].
        rewrite (Qmult_comm m), (Qmult_comm m). apply Qmult_le_compat_r; lra.
    Qed.

    Lemma flat_bounds : forall smin smax m1 g l g', (0 <= smin)%Q -> (0 <= smax)%Q ->
      Forall (fun m => 0 < m /\ rnd m == m)%Q m1 ->
      flat_secondaries G next scale fdiv fmul smin smax m1 g = Ok (l, g') ->
      Forall2 (fun m m2 => (1 - eps) * (1 - eps) * smin <= m2 /\ m2 <= m /\ m2 <= (1 + eps) * (1 + eps) * smax)%Q
        m1 l.
    Proof.
      intros smin smax m1 g l g' Hs Hx F. revert g l g'. induction F as [|m m1 [Hm Rm] F IH]; intros g l g' H.
      - cbn in H. assert (l = []) as -> by congruence. constructor.
      - cbn [flat_secondaries] in H.
        destruct (flat_mass_ratio_ok (qmax (fdiv smin m) 0) (qmin (fdiv smax m) 1)) eqn:OK; [|discriminate].
        pose proof (U g) as UG. destruct (next g) as [u g1]. cbn [fst] in UG.
        destruct (flat_secondaries G next scale fdiv fmul smin smax m1 g1) as [[l' g2]|] eqn:E; [|discriminate].
        cbn [rbind] in H.
        assert (l = fmul m (scale (qmax (fdiv smin m) 0) (qmin (fdiv smax m) 1) u) :: l') as -> by congruence.
        constructor; [|apply (IH g1 l' g2 E)]. apply one_bound; assumption.
    Qed.
  End Bounds.

  (** With exact arithmetic the scheme succeeds exactly when every primary mass exceeds the
      smallest secondary mass. *)
  Lemma flat_succeeds : forall smin smax, (0 < smin)%Q -> (smin < smax)%Q ->
    (forall a b, fdiv a b == a / b)%Q ->
    forall m1 g, Forall (fun m => 0 < m)%Q m1 ->
    ((exists r, flat_secondaries G next scale fdiv fmul smin smax m1 g = Ok r) <->
     Forall (fun m => smin < m)%Q m1) /\
    (forall e, flat_secondaries G next scale fdiv fmul smin smax m1 g = Raise e -> e = ValueError).
  Proof using Type.
    intros smin smax S0 S1 DIV. induction m1 as [|m m1 IH]; intros g F.
    - split; [split; intro; [constructor | eexists; reflexivity] | intros e H; discriminate].
    - apply Forall_cons_iff in F. destruct F as [Hm F]. cbn [flat_secondaries].
      assert (flat_mass_ratio_ok (qmax (fdiv smin m) 0) (qmin (fdiv smax m) 1) = true <-> (smin < m)%Q) as OK.
      { rewrite flat_ok_iff.
        assert (0 < smin / m)%Q as D0 by (apply Qlt_shift_div_l; lra).
        assert (smin / m < smax / m)%Q as D1.
        { apply Qmult_lt_compat_r; [apply Qinv_lt_0_compat; exact Hm | exact S1]. }
        assert (smin / m * m == smin)%Q as C1 by (field; lra).
        pose proof (DIV smin m) as DA. pose proof (DIV smax m) as DB.
        destruct (qmax_spec (fdiv smin m) 0) as [[X1 X2] X3]. destruct (qmin_spec (fdiv smax m) 1) as [[Y1 Y2] Y3].
        set (a := qmax (fdiv smin m) 0) in *. set (b := qmin (fdiv smax m) 1) in *.
        assert (a == smin / m)%Q as EA.
        { destruct X3 as [E | E]; rewrite E in *; lra. }
        assert (b == smax / m \/ b == 1)%Q as EB.
        { destruct Y3 as [E | E]; rewrite E; [left; exact DB | right; reflexivity]. }
        set (x := (smin / m)%Q) in *. set (y := (smax / m)%Q) in *.
        split.
        - intros (A0 & A1 & _). apply Qlt_le_trans with (1 * m)%Q; [|lra].
          rewrite <- C1. apply Qmult_lt_compat_r; lra.
        - intro L. assert (x < 1)%Q as L1 by (apply Qlt_shift_div_r; lra).
          destruct EB as [EB | EB]; repeat split; lra. }
      destruct (flat_mass_ratio_ok (qmax (fdiv smin m) 0) (qmin (fdiv smax m) 1)).
      + destruct (next g) as [u g1]. specialize (IH g1 F). destruct IH as [IH1 IH2].
        destruct (flat_secondaries G next scale fdiv fmul smin smax m1 g1) as [[l' g2]|e]; cbn [rbind].
        * split; [|discriminate]. split; [|intros _; eexists; reflexivity].
          intros _. constructor; [apply OK; reflexivity | apply IH1; eexists; reflexivity].
        * split; [|intros e' H; apply IH2; congruence]. split; [intros [r H]; discriminate|].
          intro H. apply Forall_cons_iff in H. pose proof (proj2 IH1 (proj2 H)) as X. destruct X; discriminate.
      + split; [|intros e H; congruence]. split; [intros [r H]; discriminate|].
        intro H. apply Forall_cons_iff in H. pose proof (proj2 OK (proj1 H)) as X. discriminate.
  Qed.
End Secondary.
