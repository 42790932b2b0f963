(** Proofs about the independent sampler and the binary generator. *)
From Coq Require Import String List ZArith QArith Bool Lia Lqa.
From Verif Require Import PyBase PyNum PyList SamplerModel SamplerSpec SamplerProofs SampleModel SampleSpec
  SampleProofs DrawProofs.
Import ListNotations.
Open Scope nat_scope.
Open Scope list_scope.

(** ** Single stars *)

Lemma nan_where_nth : forall mask l i, length mask = length l ->
  nth_error (nan_where mask l) i =
  match nth_error mask i with Some true => option_map (fun _ => NaN) (nth_error l i) | _ => nth_error l i end.
Proof.
  induction mask as [|b mask IH]; intros [|x l] i L; try discriminate.
  - destruct i; reflexivity.
  - cbn [nan_where]. destruct i as [|i]; cbn [nth_error].
    + destruct b; reflexivity.
    + apply IH. cbn in L. lia.
Qed.

Lemma nan_where_twice : forall mask l, nan_where mask (nan_where mask l) = nan_where mask l.
Proof.
  induction mask as [|b mask IH]; intros [|x l]; cbn; try reflexivity. rewrite IH. destruct b; reflexivity.
Qed.

Lemma fraction_ok : forall scheme const m1 f, generate_binary_fraction scheme const m1 = Ok f ->
  scheme = "const"%string /\ f = map (fun _ => const) m1 \/
  scheme = "Moe+17-massdependent"%string /\ f = map moe_fraction m1.
Proof.
  unfold generate_binary_fraction. intros scheme const m1 f H.
  destruct (String.eqb scheme "const") eqn:E.
  - apply String.eqb_eq in E. left. split; [exact E | congruence].
  - destruct (String.eqb scheme "Moe+17-massdependent") eqn:E2; [|discriminate].
    apply String.eqb_eq in E2. right. split; [exact E2 | congruence].
Qed.

Section Independent.
  Variable G : Type.
  Variable next : G -> Q * G.
  Variable scale : Q -> Q -> Q -> Q.
  Variable fdiv fmul : Q -> Q -> Q.
  Notation indep := (generate_independent_samples G next scale fdiv fmul).
  Notation steps := (skip G next).

  Definition number (k : kwargs) := match k_number k with Some n => n | None => 1 end.

  (** What a successful call has done, step by step. *)
  Lemma indep_inv : forall c scheme k g q g', indep c scheme k g = Some (Ok (q, g')) ->
    exists m1 g1 m2 g2 o g3 e g4 f,
      c_m1 G c (number k) g = Some (Ok (m1, g1)) /\
      generate_secondary_masses G next scale fdiv fmul (c_secondary_scheme G c) (c_smin G c) (c_smax G c) m1 g1
        = Ok (m2, g2) /\
      ((scheme = Some "separation"%string /\ c_sep G c (number k) g2 = Some (Ok (o, g3))) \/
       ((scheme = Some "period"%string \/ scheme = None) /\ c_per G c m1 (number k) g2 = Some (Ok (o, g3)))) /\
      c_ecc G c (number k) g3 = Some (Ok (e, g4)) /\
      generate_binary_fraction (c_fraction_scheme G c) (c_fraction G c) (map Fin m1) = Ok f /\
      g' = steps (length m1) g4 /\
      let mask := map (fun p => ngt (Fin (fst p)) (snd p)) (combine (fst (raws G next (length m1) g4)) f) in
      q_orbit q = nan_where mask o /\ q_ecc q = nan_where mask e /\
      match m2 with
      | Some l => q_m1 q = map Fin m1 /\ q_m2 q = nan_where mask (map Fin l)
      | None => q_m1 q = nan_where mask (map Fin m1) /\ q_m2 q = q_m1 q
      end.
  Proof using Type.
    intros c scheme k g q g' H. unfold generate_independent_samples in H. fold (number k) in H.
    apply bind_ok in H. destruct H as ([m1 g1] & E1 & H).
    apply bind_ok in H. destruct H as ([m2 g2] & E2 & H).
    apply bind_ok in H. destruct H as ([o g3] & E3 & H).
    apply bind_ok in H. destruct H as ([e g4] & E4 & H).
    apply bind_ok in H. destruct H as (f & E5 & H).
    unfold ret in E2, E5. exists m1, g1, m2, g2, o, g3, e, g4, f.
    split; [exact E1|]. split; [congruence|]. split.
    { destruct scheme as [s|]; [|right; auto].
      destruct (String.eqb s "separation") eqn:A.
      { apply String.eqb_eq in A. subst. left. auto. }
      destruct (String.eqb s "period") eqn:B.
      { apply String.eqb_eq in B. subst. right. auto. }
      apply String.eqb_neq in A, B.
      exfalso. revert E3. repeat (destruct s as [|[[] [] [] [] [] [] [] []] s]; try discriminate; try congruence). }
    split; [exact E4|]. split; [congruence|].
    rewrite <- raws_skip. destruct (raws G next (length m1) g4) as [us g5] eqn:ER. cbn [fst snd].
    unfold ret in H.
    destruct m2 as [l|]; cbn in H; inversion H; subst; cbn;
      (split; [reflexivity|]); (split; [reflexivity|]); (split; [reflexivity|]); split; reflexivity.
  Qed.

  Lemma secondary_inv : forall scheme smin smax m1 g m2 g',
    generate_secondary_masses G next scale fdiv fmul scheme smin smax m1 g = Ok (m2, g') ->
    m1 <> [] /\ Forall (fun m => smin <= m)%Q m1 /\
    ((scheme = "flat_mass_ratio"%string /\ exists l, m2 = Some l /\
        flat_secondaries G next scale fdiv fmul smin smax m1 g = Ok (l, g')) \/
     (scheme = "q=1"%string /\ m2 = None /\ g' = g)).
  Proof using Type.
    intros scheme smin smax m1 g m2 g' H. unfold generate_secondary_masses in H.
    destruct (inb String.eqb scheme ["flat_mass_ratio"%string; "q=1"%string]) eqn:EI; cbn [negb] in H; [|discriminate].
    destruct m1 as [|m m1]; [discriminate|].
    destruct (Qle_bool smin (qmin_list m m1)) eqn:EL; cbn [negb] in H; [|discriminate].
    split; [discriminate|]. split.
    { apply Forall_forall. intros x I. apply Qle_bool_iff in EL.
      eapply Qle_trans; [exact EL | apply qmin_list_le; exact I]. }
    destruct (String.eqb scheme "flat_mass_ratio") eqn:EF.
    - apply String.eqb_eq in EF. left. split; [exact EF|].
      destruct (flat_secondaries G next scale fdiv fmul smin smax (m :: m1) g) as [[l g2]|]; [|discriminate].
      cbn [rbind] in H. exists l. split; congruence.
    - right. cbn [inb] in EI. rewrite EF in EI. cbn [orb] in EI.
      destruct (String.eqb scheme "q=1") eqn:EQ; [|discriminate EI].
      apply String.eqb_eq in EQ. split; [exact EQ|]. split; congruence.
  Qed.

  (** ** How many random numbers a call takes *)

  Definition per_binary (c : config G) (c1 co ce : nat) : nat :=
    c1 + (if String.eqb (c_secondary_scheme G c) "flat_mass_ratio" then 1 else 0) + co + ce + 1.

  Definition orbit_steady (c : config G) (scheme : string) (co : nat) :=
    (scheme = "separation"%string /\ steady next co (c_sep G c)) \/
    (scheme = "period"%string /\ forall m1, steady next co (c_per G c m1)).

  Lemma indep_skip : forall c c1 co ce scheme, steady next c1 (c_m1 G c) -> orbit_steady c scheme co ->
    steady next ce (c_ecc G c) ->
    forall k g q g', indep c (Some scheme) k g = Some (Ok (q, g')) ->
    g' = steps (per_binary c c1 co ce * number k) g.
  Proof using Type.
    intros c c1 co ce scheme S1 So Se k g q g' H.
    apply indep_inv in H. destruct H as (m1 & g1 & m2 & g2 & o & g3 & e & g4 & f & E1 & E2 & E3 & E4 & E5 & -> & _).
    apply S1 in E1. destruct E1 as [-> L1]. rewrite <- skip_iter in *.
    assert (g2 = steps ((if String.eqb (c_secondary_scheme G c) "flat_mass_ratio" then 1 else 0) * number k)
                       (steps (c1 * number k) g)) as ->.
    { apply secondary_inv in E2. destruct E2 as (_ & _ & [(ES & l & -> & EF) | (ES & -> & ->)]).
      - apply flat_skip in EF. destruct EF as [-> _]. rewrite ES, L1. cbn [String.eqb Ascii.eqb Bool.eqb].
        rewrite Nat.mul_1_l. reflexivity.
      - rewrite ES. reflexivity. }
    assert (g3 = steps (co * number k) (steps ((if String.eqb (c_secondary_scheme G c) "flat_mass_ratio"
                                                 then 1 else 0) * number k) (steps (c1 * number k) g))) as ->.
    { rewrite (skip_iter _ _ (co * number k)).
      destruct So as [[-> So] | [-> So]]; destruct E3 as [[X E3] | [[X | X] E3]]; try discriminate X;
        apply So in E3; apply E3. }
    apply Se in E4. destruct E4 as [-> _]. rewrite <- skip_iter. rewrite <- !skip_add. f_equal.
    rewrite L1. unfold per_binary. nia.
  Qed.

  Lemma indep_kw : forall c scheme k k' g, k_number k = k_number k' -> indep c scheme k g = indep c scheme k' g.
  Proof using Type. intros. unfold generate_independent_samples. rewrite H. reflexivity. Qed.
End Independent.

Ltac someok H x :=
  apply bind_ok in H;
  let E := fresh "E" in destruct H as (x & E & H);
  match type of E with Some ?r = Some ?y => assert (r = y) as -> by congruence end; clear E; cbn [bind].

(** ** The generator *)

Section Generator.
  Variable G : Type.
  Variable next : G -> Q * G.
  Variable sampler : option string -> kwargs -> G -> run (quad * G).
  Variable kicks_from_file : kwargs -> run (list kick_row * list kick_row).
  Variable formation_times : nat -> G -> run (list num * G).
  Variable period_of separation_of : num -> num -> num -> num.
  Notation steps := (skip G next).
  Notation dsamples := (draw_initial_samples G sampler kicks_from_file formation_times period_of separation_of).
  Notation dbinary := (draw_initial_binary G sampler kicks_from_file formation_times period_of separation_of).
  Notation dmany := (draw_many G sampler kicks_from_file formation_times period_of separation_of).
  Notation by_iter := (get_binary_by_iter G sampler kicks_from_file formation_times period_of separation_of).

  Definition with_index (i : nat) (b : binary) : binary :=
    Binary i (b_time b) (b_state b) (b_event b) (b_sep b) (b_period b) (b_ecc b) (b_m1 b) (b_kick1 b) (b_star2 b).

  (** No file, and the sampler looks at the number of binaries only. *)
  Definition no_file (k : kwargs) := k_path k = NoPath \/ k_path k = EmptyPath.
  Hypothesis BLIND : forall s k k' g, k_number k = k_number k' -> sampler s k g = sampler s k' g.

  (** The sampled values do not depend on the index and the counter. *)
  Lemma samples_counter : forall k i g ng ng', no_file k ->
    dsamples (set_number (set_index k i) 1) g ng' =
    match dsamples (set_number k 1) g ng with
    | None => None
    | Some (Raise e) => Some (Raise e)
    | Some (Ok (s, g', _)) =>
        Some (Ok (Samples (seq ng' (length (s_index s))) (s_is_binary s) (s_time s) (s_sep s) (s_ecc s)
                     (s_period s) (s_m1 s) (s_m2 s) (s_kick1 s) (s_kick2 s), g', ng' + length (s_index s)))
    end.
  Proof using BLIND.
    intros k i g ng ng' NF. unfold draw_initial_samples.
    assert (k_path (set_number (set_index k i) 1) = k_path k) as -> by reflexivity.
    assert (k_path (set_number k 1) = k_path k) as -> by reflexivity.
    cbn [k_scheme set_number set_index k_number].
    rewrite (BLIND _ (Kw (Some 1) (Some i) (k_scheme k) (k_path k)) (Kw (Some 1) (k_index k) (k_scheme k) (k_path k)))
      by reflexivity.
    change (Kw (Some 1) (k_index k) (k_scheme k) (k_path k)) with (set_number k 1).
    set (scheme := match k_scheme k with Some s => s | None => "separation"%string end).
    destruct (sampler (Some scheme) (set_number k 1) g) as [[[q g1]|e]|]; cbn [bind]; [|reflexivity|reflexivity].
    match goal with |- context [ bind ?x _ ] => destruct x as [[[sep per]|e]|] end; cbn [bind];
      [|reflexivity|reflexivity].
    destruct (formation_times (length per) g1) as [[[times g2]|e]|]; cbn [bind]; [|reflexivity|reflexivity].
    destruct NF as [-> | ->]; cbn; rewrite seq_length; reflexivity.
  Qed.

  Lemma item_seq : forall a n x, item (seq a n) = Ok x -> n = 1 /\ x = a.
  Proof using Type.
    intros a [|[|n]] x H; try discriminate. cbn in H. split; [reflexivity | congruence].
  Qed.

  (** The n-th draw only depends on the state of the random numbers. *)
  Lemma binary_counter : forall k i g ng ng' b g' m, no_file k -> k_index k = None ->
    dbinary k g ng = Some (Ok (b, g', m)) ->
    b_index b = ng /\ m = S ng /\ dbinary (set_index k i) g ng' = Some (Ok (with_index i b, g', S ng')).
  Proof using BLIND.
    intros k i g ng ng' b g' m NF NI H. unfold draw_initial_binary in *.
    rewrite (samples_counter k i g ng ng' NF).
    apply bind_ok in H. destruct H as ([[s g1] n1] & ES & H). rewrite ES. cbn [bind].
    assert (exists n, s_index s = seq ng n /\ n1 = ng + n) as (n & EN & ->).
    { unfold draw_initial_samples in ES.
      apply bind_ok in ES. destruct ES as ([q g2] & _ & ES).
      apply bind_ok in ES. destruct ES as ([sep per] & _ & ES).
      apply bind_ok in ES. destruct ES as ([ti g3] & _ & ES).
      apply bind_ok in ES. destruct ES as ([k1 k2] & _ & ES).
      unfold ret in ES. exists (length per). split; [|congruence].
      match type of ES with Some (Ok (?x, _, _)) = _ => assert (s = x) as -> by congruence end. reflexivity. }
    apply bind_ok in H. destruct H as (di & ED & H). unfold ret in ED.
    assert (item (s_index s) = Ok di) as ED' by congruence. rewrite EN in ED'. apply item_seq in ED'.
    destruct ED' as [-> ->].
    cbn [s_index s_is_binary s_time s_m1 s_m2 s_kick1 s_kick2 s_sep s_period s_ecc].
    rewrite EN. unfold ret in *. cbn [seq length]. change (item [ng']) with (Ok ng'). cbn [bind].
    someok H ib.
    someok H ti.
    someok H m1.
    someok H kk.
    rewrite NI in H. cbn [k_index set_index].
    destruct ib.
    - someok H x1.
      someok H x2.
      someok H x3.
      someok H x4.
      someok H x5.
      unfold ret in *. inversion H; subst. cbn. split; [reflexivity|]. split; [lia|].
      rewrite Nat.add_1_r. reflexivity.
    - unfold ret in *. inversion H; subst. cbn. split; [reflexivity|]. split; [lia|].
      rewrite Nat.add_1_r. reflexivity.
  Qed.

  (** Every call of the sampler takes [c] numbers per binary, formation times take none. *)
  Variable c : nat.
  Variable k : kwargs.
  Hypothesis NF : no_file k.
  Hypothesis NI : k_index k = None.
  Hypothesis SAMPLER : forall n g q g',
    sampler (Some (match k_scheme k with Some s => s | None => "separation"%string end)) (set_number k n) g
      = Some (Ok (q, g')) -> g' = steps (c * n) g.
  Hypothesis TIMES : forall n g l g', formation_times n g = Some (Ok (l, g')) -> g' = g.

  Lemma binary_state : forall g ng b g' m, dbinary k g ng = Some (Ok (b, g', m)) -> g' = steps c g.
  Proof using SAMPLER TIMES.
    intros g ng b g' m H. unfold draw_initial_binary in H.
    apply bind_ok in H. destruct H as ([[s g1] n1] & ES & H).
    assert (g' = g1) as ->.
    { repeat (apply bind_ok in H; let x := fresh in destruct H as (x & _ & H)).
      match type of H with (if ?b then _ else _) = _ => destruct b end.
      - repeat (apply bind_ok in H; let x := fresh in destruct H as (x & _ & H)). unfold ret in H. congruence.
      - unfold ret in H. congruence. }
    unfold draw_initial_samples in ES.
    apply bind_ok in ES. destruct ES as ([q g2] & E1 & ES).
    apply bind_ok in ES. destruct ES as ([sep per] & _ & ES).
    apply bind_ok in ES. destruct ES as ([ti g3] & E2 & ES).
    apply bind_ok in ES. destruct ES as ([k1 k2] & _ & ES).
    unfold ret in ES. assert (g1 = g3) as -> by congruence. apply TIMES in E2. subst g3.
    cbn [k_scheme set_number] in E1. apply SAMPLER in E1. rewrite E1, Nat.mul_1_r. reflexivity.
  Qed.

  Lemma many_nth : forall n o bs o', dmany n k o = Some (Ok (bs, o')) ->
    length bs = n /\
    forall i, i < n -> exists b g', nth_error bs i = Some b /\
      dbinary k (steps (c * i) (rng G o)) (num_gen G o + i) = Some (Ok (b, g', S (num_gen G o + i))).
  Proof using BLIND SAMPLER TIMES NF NI.
    induction n as [|n IH]; intros o bs o' H.
    - cbn in H. unfold ret in H. assert (bs = []) as -> by congruence. split; [reflexivity|]. intros; lia.
    - cbn [draw_many] in H. apply bind_ok in H. destruct H as ([b o1] & E1 & H).
      apply bind_ok in H. destruct H as ([bs1 o2] & E2 & H). unfold ret in H.
      assert (bs = b :: bs1) as -> by congruence.
      unfold draw in E1. apply bind_ok in E1. destruct E1 as ([[b1 g1] n1] & E1 & H1). unfold ret in H1.
      assert (b1 = b) as -> by congruence. assert (o1 = Gen G (original G o) g1 n1) as -> by congruence.
      pose proof (binary_state _ _ _ _ _ E1) as EG.
      destruct (binary_counter k 0 _ _ 0 _ _ _ NF NI E1) as (_ & EN & _).
      destruct (IH _ _ _ E2) as [L P]. cbn [rng num_gen] in P. split; [cbn; congruence|].
      intros [|i] B.
      + exists b, g1. split; [reflexivity|]. rewrite Nat.mul_0_r, Nat.add_0_r. cbn [skip].
        rewrite EN in E1. exact E1.
      + destruct (P i ltac:(lia)) as (b' & g' & N & D). exists b', g'. split; [exact N|].
        rewrite EG, EN in D. rewrite <- skip_add in D.
        replace (c + c * i) with (c * S i) in D by lia.
        replace (S (num_gen G o) + i) with (num_gen G o + S i) in D by lia. exact D.
  Qed.

  Lemma by_iter_ok : forall n o b o1 bs o2 s, 1 <= n -> k_scheme k = Some s ->
    by_iter n k o = Some (Ok (b, o1)) ->
    dmany n k (reset_rng G o) = Some (Ok (bs, o2)) ->
    o1 = o /\ exists b', nth_error bs (n - 1) = Some b' /\ b_index b' = n - 1 /\ b = with_index n b'.
  Proof using BLIND SAMPLER TIMES NF NI.
    intros n o b o1 bs o2 s N ES H M.
    destruct (many_nth n (reset_rng G o) bs o2 M) as [L P]. cbn [rng num_gen reset_rng] in P.
    destruct (P (n - 1) ltac:(lia)) as (b' & g' & NB & DB).
    unfold get_binary_by_iter in H.
    destruct (n =? 0) eqn:EZ; [apply Nat.eqb_eq in EZ; lia|].
    apply bind_ok in H. destruct H as ([u g] & E1 & H).
    apply bind_ok in E1. destruct E1 as ([q g0] & E1 & E2). unfold ret in E2. assert (g0 = g) as -> by congruence.
    rewrite ES in E1. specialize (SAMPLER (n - 1) (original G o) q g). rewrite ES in SAMPLER.
    apply SAMPLER in E1. subst g.
    apply bind_ok in H. destruct H as ([[b1 g1] m1] & E3 & H). unfold ret in H.
    assert (b1 = b) as -> by congruence.
    assert (o1 = Gen G (original G o) (rng G o) (num_gen G o)) as -> by congruence.
    split; [destruct o; reflexivity|].
    destruct (binary_counter k n _ _ (num_gen G o) _ _ _ NF NI DB) as (EB & _ & D2).
    exists b'. split; [exact NB|]. split; [exact EB|]. congruence.
  Qed.

  (** get_binary_by_iter(0) is the first binary. *)
  Lemma by_iter_zero : forall o b o1 bs o2,
    by_iter 0 k o = Some (Ok (b, o1)) ->
    dmany 1 k (reset_rng G o) = Some (Ok (bs, o2)) ->
    o1 = o /\ bs = [b].
  Proof using BLIND SAMPLER TIMES NF NI.
    intros o b o1 bs o2 H M.
    destruct (many_nth 1 (reset_rng G o) bs o2 M) as [L P]. cbn [rng num_gen reset_rng] in P.
    destruct (P 0 ltac:(lia)) as (b' & g' & NB & DB). rewrite Nat.mul_0_r in DB. cbn [skip] in DB.
    unfold get_binary_by_iter in H. cbn [Nat.eqb] in H. unfold ret at 1 in H. cbn [bind] in H.
    apply bind_ok in H. destruct H as ([[b1 g1] m1] & E3 & H). unfold ret in H.
    assert (b1 = b) as -> by congruence.
    assert (o1 = Gen G (original G o) (rng G o) (num_gen G o)) as -> by congruence.
    split; [destruct o; reflexivity|].
    destruct (binary_counter k 0 _ _ (num_gen G o) _ _ _ NF NI DB) as (EB & _ & D2).
    destruct bs as [|b2 [|]]; try discriminate. cbn in NB. assert (b2 = b') as -> by congruence.
    assert (b = with_index 0 b') as -> by congruence. destruct b'; cbn in *. subst. reflexivity.
  Qed.
End Generator.

(** ** A binary from a file *)

Section FileBinary.
  Variable G : Type.
  Variable casefold : string -> string.
  Variable g_ecc : nat -> G -> run (list num * G).
  Variable g_m1 : nat -> G -> run (list num * G).
  Variable g_m2 : list num -> nat -> G -> run (list num * G).
  Variable g_sep : nat -> G -> run (list num * G).
  Variable g_per : list num -> nat -> G -> run (list num * G).
  Variable formation_times : nat -> G -> run (list num * G).
  Variable period_of separation_of : num -> num -> num -> num.
  Variable fuel : nat.
  Notation sampler := (get_samples_from_file G casefold g_ecc g_m1 g_m2 g_sep g_per fuel).
  Notation kicks := (get_kick_samples_from_file casefold fuel).
  Notation dbinary := (draw_initial_binary G sampler kicks formation_times period_of separation_of).

  Lemma cyclic_one : forall A (l : list A) i out, cyclic l i 1 out -> l <> [] ->
    exists x, out = [x] /\ nth_error l (i mod length l) = Some x.
  Proof using Type.
    intros A l i out [L P] NE. destruct out as [|x [|]]; try discriminate.
    exists x. split; [reflexivity|]. specialize (P 0 ltac:(lia)). rewrite Nat.add_0_r in P. symmetry. exact P.
  Qed.

  Lemma file_binary : forall k d i g ng e g1 m1 g2 m2 g3 o g4 t g5,
    k_path k = File d -> table_ok d -> 1 <= n_rows d -> i + 1 <= fuel ->
    sourced casefold d ECCENTRICITY_NAMES g_ecc g e g1 ->
    sourced casefold d PRIMARY_MASS_NAMES g_m1 g1 m1 g2 ->
    sourced casefold d SECONDARY_MASS_NAMES (g_m2 m1) g2 m2 g3 ->
    (k_scheme k = Some "separation"%string /\ sourced casefold d SEPARATION_NAMES g_sep g3 o g4 \/
     k_scheme k = Some "period"%string /\ sourced casefold d PERIOD_NAMES (g_per m1) g3 o g4) ->
    formation_times 1 g4 = Some (Ok ([t], g5)) ->
    exists b, dbinary (set_index k i) g ng = Some (Ok (b, g5, S ng)) /\
      let r := i mod n_rows d in
      b_index b = i /\ b_time b = t /\ nth_error m1 r = Some (b_m1 b) /\
      kick_at casefold d r 1 (b_kick1 b) /\
      (nth_error m2 r = Some NaN -> b_state b = "initially_single_star"%string /\ b_star2 b = None /\
         b_sep b = NaN /\ b_period b = NaN /\ b_ecc b = NaN) /\
      (nth_error m2 r <> Some NaN -> b_state b = "detached"%string /\
         nth_error e r = Some (b_ecc b) /\
         (exists x kr, b_star2 b = Some (x, kr) /\ nth_error m2 r = Some x /\ kick_at casefold d r 2 kr /\
          (k_scheme k = Some "separation"%string ->
             nth_error o r = Some (b_sep b) /\ b_period b = period_of (b_sep b) (b_m1 b) x) /\
          (k_scheme k = Some "period"%string ->
             nth_error o r = Some (b_period b) /\ b_sep b = separation_of (b_period b) (b_m1 b) x))).
  Proof using Type.
    intros k d i g ng e g1 m1 g2 m2 g3 o g4 t g5 EP T M F Se S1 S2 So ET.
    set (kk := set_number (set_index k i) 1).
    assert (exists scheme, k_scheme k = Some scheme) as (scheme & ESC).
    { destruct So as [[-> _] | [-> _]]; eexists; reflexivity. }
    destruct (samples_cyclic G casefold g_ecc g_m1 g_m2 g_sep g_per fuel (k_scheme k) kk d g e g1 m1 g2 m2 g3 o g4 1
                EP T M Se S1 S2 So eq_refl (le_n 1)) as (q & EQ & Co & Ce & C1 & C2).
    { cbn [kk k_index set_index set_number]. exact F. }
    cbn [kk k_index set_index set_number] in Co, Ce, C1, C2.
    destruct (kicks_cyclic casefold fuel kk d 1 EP T M eq_refl) as (ka & kb & EK & LA & LB & PK).
    { exact F. }
    cbn [kk k_index set_index set_number] in PK.
    destruct (PK 0 ltac:(lia)) as (ra & rb & NA & NB & KA & KB). rewrite Nat.add_0_r in KA, KB.
    destruct ka as [|ra' [|]]; try discriminate. destruct kb as [|rb' [|]]; try discriminate.
    cbn in NA, NB. assert (ra' = ra) as -> by congruence. assert (rb' = rb) as -> by congruence.
    pose proof (proj2 (column_or_ok G casefold _ _ _ _ _ _ T Se)) as Le.
    pose proof (proj2 (column_or_ok G casefold _ _ _ _ _ _ T S1)) as L1.
    pose proof (proj2 (column_or_ok G casefold _ _ _ _ _ _ T S2)) as L2.
    assert (length o = n_rows d) as Lo.
    { destruct So as [[_ So] | [_ So]]; exact (proj2 (column_or_ok G casefold _ _ _ _ _ _ T So)). }
    assert (o <> [] /\ e <> [] /\ m1 <> [] /\ m2 <> []) as (No & Ne & N1 & N2).
    { repeat split; intros ->; cbn in *; lia. }
    destruct (cyclic_one _ o i _ Co No) as (vo & Eo & Vo). destruct (cyclic_one _ e i _ Ce Ne) as (ve & Ee & Ve).
    destruct (cyclic_one _ m1 i _ C1 N1) as (v1 & E1 & V1). destruct (cyclic_one _ m2 i _ C2 N2) as (v2 & E2 & V2).
    rewrite Lo in Vo. rewrite Le in Ve. rewrite L1 in V1. rewrite L2 in V2.
    destruct q as [qo qe q1 q2]. cbn in Eo, Ee, E1, E2. subst qo qe q1 q2.
    unfold draw_initial_binary, draw_initial_samples. fold kk.
    assert (k_scheme kk = k_scheme k) as -> by reflexivity.
    assert (k_path kk = File d) as -> by exact EP.
    rewrite ESC in *. rewrite EQ. cbn [bind q_orbit q_m1 q_m2 q_ecc].
    assert (exists sep per, (if String.eqb scheme "separation"
                     then ret (Ok ([vo], zip3 period_of [vo] [v1] [v2]))
                     else if String.eqb scheme "period"
                     then ret (Ok (zip3 separation_of [vo] [v1] [v2], [vo]))
                     else ret (Raise ValueError)) = ret (Ok ([sep], [per])) /\
              (scheme = "separation"%string -> sep = vo /\ per = period_of vo v1 v2) /\
              (scheme = "period"%string -> per = vo /\ sep = separation_of vo v1 v2)) as (sep & per & -> & PS & PP).
    { destruct So as [[E _] | [E _]]; assert (scheme = _) as -> by (injection E as E; exact E).
      - exists vo, (period_of vo v1 v2). split; [reflexivity|]. split; intro X; [auto | discriminate X].
      - exists (separation_of vo v1 v2), vo. split; [reflexivity|]. split; intro X; [discriminate X | auto]. }
    unfold ret. cbn [bind length]. rewrite ET. cbn [bind]. rewrite EK. cbn [bind].
    cbn [s_index s_is_binary s_time s_m1 s_m2 s_kick1 s_kick2 s_sep s_period s_ecc seq item map k_index set_index].
    cbn [bind].
    destruct (negb (is_nan v2)) eqn:EB; cbn [bind].
    - eexists. split; [rewrite Nat.add_1_r; reflexivity|]. cbn.
      split; [reflexivity|]. split; [reflexivity|]. split; [exact V1|]. split; [exact KA|]. split.
      { intro X. rewrite V2 in X. assert (v2 = NaN) by congruence. subst. discriminate. }
      intros _. split; [reflexivity|]. split; [exact Ve|]. exists v2, rb. split; [reflexivity|].
      split; [exact V2|]. split; [exact KB|]. split.
      + intro X. destruct (PS ltac:(congruence)) as [-> ->]. auto.
      + intro X. destruct (PP ltac:(congruence)) as [-> ->]. auto.
    - assert (v2 = NaN) as -> by (destruct v2; try discriminate; reflexivity).
      eexists. split; [rewrite Nat.add_1_r; reflexivity|]. cbn.
      split; [reflexivity|]. split; [reflexivity|]. split; [exact V1|]. split; [exact KA|]. split.
      { intros _. auto. }
      intro X. exfalso. apply X. exact V2.
  Qed.
End FileBinary.
