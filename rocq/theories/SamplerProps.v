(** C19 and C51: samplers return the requested number of values, in range, each from its own
    random numbers; formation times. *)
From Coq Require Import String List ZArith QArith Bool Lia Reals Lra Lqa.
From Verif Require Import PyBase PyList PyStr SamplerModel SamplerSpec SamplerProofs ThinProofs HistoSampleProofs
  InverseModel InverseSpec InverseProofs SampleModel TimesModel.
Import ListNotations.
Open Scope string_scope.
Open Scope nat_scope.
Open Scope list_scope.

(** A small concrete stream for the examples. *)
Definition ex_next (g : N) : Q * N := (Z.of_N (N.modulo (g * g * 7 + 3 * g + 5) 101) # 101, N.succ g).
Definition ex_scale (lo hi u : Q) : Q := Qred (lo + (hi - lo) * u).

Example ex_unit : unit_stream ex_next.
Proof.
  intro g. cbn [ex_next fst].
  assert (N.modulo (g * g * 7 + 3 * g + 5) 101 < 101)%N as L by (apply N.mod_lt; discriminate).
  unfold Qle, Qlt. cbn [Qnum Qden]. generalize dependent (N.modulo (g * g * 7 + 3 * g + 5) 101).
  intros m L. split; lia.
Qed.

Example ex_limits : keeps_limits ex_scale.
Proof.
  intros lo hi u L U0 U1. unfold ex_scale. rewrite !Qred_correct.
  assert (0 <= (hi - lo) * u)%Q by (apply Qmult_le_0_compat; lra).
  assert ((hi - lo) * u <= (hi - lo) * 1)%Q.
  { rewrite (Qmult_comm (hi - lo) u), (Qmult_comm (hi - lo) 1). apply Qmult_le_compat_r; lra. }
  lra.
Qed.

(** * C19 *)
(** Rejection sampling from a density function: exactly [size] values, namely the proposals
    below the density, in the interval; the top is the density at one of 50000 probes and not
    below any of them; no raw number is used twice. *)
Theorem rejection_pdf_exact : forall G (next : G -> Q * G) scale, unit_stream next -> keeps_limits scale ->
  forall fuel xy interp pdf lo hi size g l g', (lo <= hi)%Q -> (forall x, 0 <= pdf x)%Q ->
  rejection_sampler G next scale fuel xy interp (Some (lo, hi)) (Some pdf) size g = Some (Ok (l, g')) ->
  length l = size /\ Forall (fun x => lo <= x /\ x <= hi)%Q l /\
  exists top proposals,
    In top (map (fun k => pdf (scale lo hi (raw_at next g k))) (seq size (50 * 1000))) /\
    Forall (fun k => pdf (scale lo hi (raw_at next g k)) <= top)%Q (seq size (50 * 1000)) /\
    thinned next scale g pdf lo hi top proposals l /\
    Forall (fun p => ~ (size <= fst p < size + 50 * 1000) /\ ~ (size <= snd p < size + 50 * 1000)) proposals.
Proof.
  intros G next scale U K fuel xy interp pdf lo hi size g l g' L P H. unfold rejection_sampler in H.
  destruct (rejection_pdf_ok G next scale U K fuel (50 * 1000) pdf lo hi size g l g' L P H) as (A & top' & _ & B).
  apply rejection_pdf_thin in H. remember (50 * 1000) as probes eqn:EP. clear EP.
  destruct H as (p & rest & proposals & E & T & PO & _).
  split; [exact A|]. split.
  { eapply Forall_impl; [|exact B]. intros x (X & Y & _). split; assumption. }
  exists (qmax_list p rest), proposals. split; [rewrite E; apply qmax_in|]. split.
  { apply Forall_forall. intros k I. apply qmax_list_ge. rewrite <- E.
    apply (in_map (fun k => pdf (scale lo hi (raw_at next g k)))). exact I. }
  split; [exact T|]. apply Forall_forall. intros [a b] I. cbn [fst snd].
  assert (In a (positions proposals)) as IA.
  { apply positions_in. left. apply (in_map fst) in I. exact I. }
  assert (In b (positions proposals)) as IB.
  { apply positions_in. right. apply (in_map snd) in I. exact I. }
  apply PO in IA. apply PO in IB. lia.
Qed.
Print Assumptions rejection_pdf_exact.

(** Rejection sampling from a table. *)
Theorem rejection_table_exact : forall G (next : G -> Q * G) scale, unit_stream next -> keeps_limits scale ->
  forall fuel interp x_lim xs ys size g l g',
  rejection_sampler G next scale fuel (Some (xs, ys)) interp x_lim None size g = Some (Ok (l, g')) ->
  length l = size /\
  exists lo hi top proposals, In lo xs /\ In hi xs /\ In top ys /\
    (forall x, In x xs -> lo <= x /\ x <= hi)%Q /\ (forall y, In y ys -> 0 <= y /\ y <= top)%Q /\
    Forall (fun x => lo <= x /\ x <= hi)%Q l /\
    thinned next scale g interp lo hi top proposals l.
Proof.
  intros G next scale U K fuel interp x_lim xs ys size g l g' H. cbn [rejection_sampler] in H.
  pose proof (rejection_xy_ok G next scale U K fuel interp xs ys size g l g' H) as (A & _).
  split; [exact A|].
  assert (forallb (fun y => Qle_bool 0 y) ys = true) as NN.
  { unfold rejection_xy in H. destruct (forallb _ ys); [reflexivity | discriminate]. }
  rewrite forallb_forall in NN.
  apply rejection_xy_thin in H. destruct H as (x & xs' & y & ys' & proposals & -> & -> & T & _ & _).
  exists (qmin_list x xs'), (qmax_list x xs'), (qmax_list y ys'), proposals.
  split; [apply qmin_in|]. split; [apply qmax_in|]. split; [apply qmax_in|].
  assert (forall v, In v (x :: xs') -> qmin_list x xs' <= v /\ v <= qmax_list x xs')%Q as RX.
  { intros v I. split; [apply qmin_list_le | apply qmax_list_ge]; exact I. }
  split; [exact RX|]. split.
  { intros v I. split; [apply Qle_bool_iff; apply NN; exact I | apply qmax_list_ge; exact I]. }
  split; [|exact T]. destruct T as (_ & ->). apply Forall_forall. intros v I.
  apply in_map_iff in I. destruct I as (p & <- & _). apply K.
  - destruct (RX x (or_introl eq_refl)). eapply Qle_trans; eassumption.
  - rewrite raw_at_skip. apply U.
  - rewrite raw_at_skip. apply U.
Qed.
Print Assumptions rejection_table_exact.

(** A table with density 2x on [0, 3/4]; some points are rejected. *)
Example rejection_table_case : exists l g',
  rejection_sampler N ex_next ex_scale 20 (Some ([0; 1#2; 3#4], [0; 1; 3#2])%Q) (fun x => 2 * x)%Q None None 4 2%N
  = Some (Ok (l, g')) /\ length l = 4 /\ (g' > 10)%N.
Proof. eexists _, _. split; [vm_compute; reflexivity|]. split; [reflexivity|]. vm_compute. reflexivity. Qed.

(** The density version with few probes (the literal 50000 makes the example slow). *)
Example rejection_pdf_case : exists l g',
  rejection_pdf N ex_next ex_scale 20 7 (fun x => x * x)%Q 1 3 4 2%N = Some (Ok (l, g')) /\ length l = 4.
Proof. eexists _, _. split; [vm_compute; reflexivity|]. reflexivity. Qed.

(** Bad arguments are refused. *)
Theorem rejection_arguments : forall G (next : G -> Q * G) scale fuel interp x_lim f xy size g,
  rejection_sampler G next scale fuel None interp x_lim None size g = Some (Raise ValueError) /\
  rejection_sampler G next scale fuel xy interp None (Some f) size g = Some (Raise ValueError) /\
  (forall xs ys y, In y ys -> (y < 0)%Q ->
     rejection_sampler G next scale fuel (Some (xs, ys)) interp x_lim None size g = Some (Raise assertion_error)).
Proof.
  intros. split; [reflexivity|]. split; [reflexivity|]. intros xs ys y I N. cbn [rejection_sampler].
  unfold rejection_xy. destruct (forallb (fun y0 => Qle_bool 0 y0) ys) eqn:E; [|reflexivity].
  rewrite forallb_forall in E. specialize (E y I). apply Qle_bool_iff in E. exfalso. lra.
Qed.
Print Assumptions rejection_arguments.

(** Nothing promises that the sampler returns: with a table whose interpolating function is
    negative (scipy's interp1d may extrapolate, or the given function may be wrong) no stream
    of random numbers ever lets it finish. *)
Theorem rejection_terminates_refuted : forall G (next : G -> Q * G) scale, unit_stream next -> keeps_limits scale ->
  forall fuel x_lim size g, 0 < size ->
  rejection_sampler G next scale fuel (Some ([0; 1], [1; 1])%Q) (fun _ => (-1)%Q) x_lim None size g = None.
Proof.
  intros G next scale U K fuel x_lim size g S0.
  destruct (rejection_sampler G next scale fuel (Some ([0; 1], [1; 1])%Q) (fun _ => (-1)%Q) x_lim None size g)
    as [[[l g']|e]|] eqn:E; [| |reflexivity].
  - exfalso. apply (rejection_xy_ok G next scale U K) in E. destruct E as (L & lo & hi & top & _ & _ & _ & _ & _ & F).
    destruct l as [|x l]; [cbn in L; lia|]. inversion F as [|? ? (_ & _ & y & A & _ & B)]. lra.
  - exfalso. revert E. unfold rejection_sampler, rejection_xy. cbn [forallb negb andb Qle_bool].
    replace (negb _) with false by reflexivity.
    destruct (uniform _ _ _ _ _ _ _). destruct (uniform _ _ _ _ _ _ _).
    destruct (refill _ _ _ _ _ _ _ _ _ _ _); discriminate.
Qed.
Print Assumptions rejection_terminates_refuted.

(** Sampling from a histogram: the j-th value lies in the bin that the cumulative weights
    assign to the j-th raw number, and is drawn there with a raw number of its own. *)
Theorem histogram_exact : forall G (next : G -> Q * G) scale, unit_stream next ->
  forall order edges ys size g,
  (forall l, NoDup (order l)) -> (forall l c, In c (order l) <-> In c l) ->
  Forall (fun y => 0 <= y)%Q ys -> ~ (fold_right Qplus 0 ys == 0)%Q -> length edges = length ys + 1 ->
  exists l pos g', histogram_sampler G next scale order edges ys size g =
      Ok (match l with [x] => Scalar x | _ => Array l end, g') /\
    length l = size /\ length pos = size /\ NoDup pos /\ (forall p, In p pos -> size <= p < 2 * size) /\
    forall j, j < size -> exists b p v, nth_error pos j = Some p /\ nth_error l j = Some v /\
      chosen_bin ys (raw_at next g j) b /\ drawn_in next scale g edges b p v.
Proof.
  intros G next scale U order edges ys size g ND O F N L.
  destruct (histogram_drawn G next scale U order edges ys size g ND O F N L) as (l & pos & E & R).
  exists l, pos, (skip G next (2 * size) g). split; [exact E | exact R].
Qed.
Print Assumptions histogram_exact.

(** In particular every value lies in a bin of positive weight. *)
Theorem histogram_in_bins : forall G (next : G -> Q * G) scale, unit_stream next -> keeps_limits scale ->
  forall order edges ys size g, (forall l c, In c (order l) <-> In c l) -> increasing_edges edges ->
  Forall (fun y => 0 <= y)%Q ys -> ~ (fold_right Qplus 0 ys == 0)%Q -> length edges = length ys + 1 ->
  exists l g', histogram_sampler G next scale order edges ys size g =
      Ok (match l with [x] => Scalar x | _ => Array l end, g') /\
    length l = size /\ Forall (in_heavy_bin edges ys) l.
Proof. exact histogram_ok. Qed.
Print Assumptions histogram_in_bins.

Example histogram_case : exists l g',
  histogram_sampler N ex_next ex_scale (nodup Nat.eq_dec) [0; 1; 3; 4]%Q [1; 0; 2]%Q 5 1%N = Ok (Array l, g') /\
  length l = 5.
Proof. eexists _, _. split; [vm_compute; reflexivity|]. reflexivity. Qed.

(** Inverse sampling: each value is the point where the area under the polygon reaches the
    fraction given by its raw number. *)
Theorem inverse_exact : forall G (next : G -> R * G), (forall g, 0 <= fst (next g) < 1)%R ->
  forall x y size g, length x = length y -> 2 <= length x ->
  (forall i, S i < length x -> (nth i x 0 < nth (S i) x 0)%R) ->
  (forall i, 0 <= nth i y 0)%R ->
  exists l g', inverse_sampler G next x y size g = Ok (l, g') /\
    Forall2 (inverts x y) (fst (raws_r G next size g)) l.
Proof. exact inverse_ok. Qed.
Print Assumptions inverse_exact.

Example inverse_case : exists l g',
  inverse_sampler unit (fun _ => (1/4, tt)%R) [0; 1; 3]%R [0; 2; 2]%R 3 tt = Ok (l, g') /\
  Forall2 (inverts [0; 1; 3]%R [0; 2; 2]%R) (fst (raws_r unit (fun _ => (1/4, tt)%R) 3 tt)) l.
Proof.
  apply inverse_exact.
  - intros []. cbn. Lra.lra.
  - reflexivity.
  - cbn. lia.
  - intros i L. destruct i as [|[|i]]; [cbn; Lra.lra | cbn; Lra.lra | cbn in L; lia].
  - intros i. destruct i as [|[|[|i]]]; cbn; try Lra.lra. destruct i; Lra.lra.
Qed.

(** * C51: formation times *)
Section Times.
  Variable G : Type.
  Variable next : G -> Q * G.
  Variable scale : Q -> Q -> Q -> Q.
  Variable pow10 : Q -> Q.
  Variable fsub : Q -> Q -> Q.
  Variable order : list nat -> list nat.
  Variable interp : list Q -> list Q -> Q -> Q.
  Variable age : Q.
  Notation times := (get_formation_times G next scale pow10 fsub order interp age).
  Notation last_time k := (match t_max k, t_sim k with Some t, _ => t | None, Some t => t | None, None => age end).

  Lemma last_time_eq : forall k, dflt (t_max k) (dflt (t_sim k) age) = last_time k.
  Proof using Type. intro k. destruct (t_max k), (t_sim k); reflexivity. Qed.

  Lemma burst_ok : forall fuel n sf k g t, casefold_ascii sf = "burst" -> t_burst k = Some t ->
    times fuel n sf k g = Some (Ok (Array (repeat t n), g)).
  Proof using Type. intros. unfold get_formation_times. rewrite H, H0. reflexivity. Qed.

  Lemma constant_ok : forall fuel n sf k g, unit_stream next -> keeps_limits scale ->
    casefold_ascii sf = "constant" ->
    let t0 := match t_min k with Some t => t | None => 0%Q end in (t0 <= last_time k)%Q ->
    exists l, times fuel n sf k g = Some (Ok (Array l, skip G next n g)) /\ length l = n /\
      Forall (fun t => t0 <= t /\ t <= last_time k)%Q l /\
      forall j, j < n -> nth_error l j = Some (scale t0 (last_time k) (raw_at next g j)).
  Proof using Type.
    intros fuel n sf k g U K H t0 L. unfold get_formation_times. rewrite H. cbn [String.eqb Ascii.eqb Bool.eqb].
    rewrite last_time_eq. change (dflt (t_min k) 0) with t0.
    pose proof (uniform_at G next scale t0 (last_time k) n 0 g) as E. cbn [skip plus] in E. rewrite E.
    eexists. split; [reflexivity|]. split; [rewrite map_length; apply seq_length|]. split.
    - apply Forall_map. apply Forall_forall. intros j _. rewrite raw_at_skip. apply K; [exact L | apply U | apply U].
    - intros j J. rewrite nth_map_error, nth_seq_error by exact J. reflexivity.
  Qed.

  Lemma custom_ok : forall fuel n sf k g xs ys s g', unit_stream next -> keeps_limits scale ->
    casefold_ascii sf = "custom_linear" \/ casefold_ascii sf = "custom_log10" -> t_table k = Ok (xs, ys) ->
    times fuel n sf k g = Some (Ok (s, g')) ->
    exists ages lo hi top proposals, thinned next scale g (interp xs ys) lo hi top proposals ages /\
      In lo xs /\ In hi xs /\ (forall x, In x xs -> lo <= x /\ x <= hi)%Q /\
      length ages = n /\ Forall (fun a => lo <= a /\ a <= hi)%Q ages /\
      s = Array (map (fun a => fsub (last_time k)
                                 (if String.eqb (casefold_ascii sf) "custom_log10" then pow10 a else a)) ages).
  Proof using Type.
    intros fuel n sf k g xs ys s g' U K H T E. unfold get_formation_times in E.
    rewrite last_time_eq, T in E.
    destruct H as [H|H]; rewrite H in *; cbn [String.eqb Ascii.eqb Bool.eqb inb] in E.
    - destruct (rejection_sampler G next scale fuel (Some (xs, ys)) (interp xs ys) None None n g)
        as [[[l g1]|e]|] eqn:ER; cbn [bind] in E; [|discriminate|discriminate].
      apply rejection_table_exact in ER; try assumption.
      destruct ER as (L & lo & hi & top & pr & A & B & C & RX & RY & F & TH).
      exists l, lo, hi, top, pr. change (py_in "log10" "custom_linear") with false in E. cbv iota in E.
      assert (s = Array (map (fun a => fsub (last_time k) a) l)) as -> by (unfold ret in E; congruence).
      split; [exact TH|]. split; [exact A|]. split; [exact B|]. split; [exact RX|]. split; [exact L|].
      split; [exact F|]. reflexivity.
    - destruct (rejection_sampler G next scale fuel (Some (xs, ys)) (interp xs ys) None None n g)
        as [[[l g1]|e]|] eqn:ER; cbn [bind] in E; [|discriminate|discriminate].
      apply rejection_table_exact in ER; try assumption.
      destruct ER as (L & lo & hi & top & pr & A & B & C & RX & RY & F & TH).
      exists l, lo, hi, top, pr. change (py_in "log10" "custom_log10") with true in E. cbv iota in E.
      assert (s = Array (map (fun a => fsub (last_time k) a) (map pow10 l))) as -> by (unfold ret in E; congruence).
      split; [exact TH|]. split; [exact A|]. split; [exact B|]. split; [exact RX|]. split; [exact L|].
      split; [exact F|]. rewrite map_map. reflexivity.
  Qed.

  Lemma histogram_one : forall fuel n sf k g s g',
    casefold_ascii sf = "custom_linear_histogram" \/ casefold_ascii sf = "custom_log10_histogram" ->
    times fuel n sf k g = Some (Ok (s, g')) ->
    (exists t, s = Scalar t) /\ forall m, times fuel m sf k g = Some (Ok (s, g')).
  Proof using Type.
    intros fuel n sf k g s g' H E. split; [|intro m; unfold get_formation_times in *;
      destruct H as [H|H]; rewrite H in *; exact E].
    unfold get_formation_times in E.
    assert (forall x y s1 g1, histogram_sampler G next scale order x y 1 g = Ok (s1, g1) -> exists t, s1 = Scalar t) as HS.
    { clear. intros x y s1 g1 E. unfold histogram_sampler in E.
      destruct (negb (forallb _ y)); [discriminate|]. destruct (negb _); [discriminate|].
      destruct (Qeq_bool _ _); [discriminate|]. destruct (choice G next y 1 g) as [bins g2] eqn:EC.
      assert (length (repeat (@None Q) 1) = 1) as LN by reflexivity.
      revert E. generalize (repeat (@None Q) 1) g2 LN. generalize (order bins). clear EC.
      induction l as [|b l IH]; intros ss gg LS E; cbn [fill_bins] in E.
      - destruct ss as [|[v|] [|w ss]]; try discriminate. cbn [all_some squeeze] in E.
        exists v. congruence.
      - destruct (nth_error x b); [|discriminate]. destruct (nth_error x (S b)); [|discriminate].
        destruct (uniform G next scale q q0 _ gg) as [vs g3]. apply IH in E; [exact E|].
        assert (forall b bins ss vs, length (fill_bin b bins ss vs) = length ss) as LF.
        { clear. intros b bins. induction bins as [|c bins IH]; intros [|s ss] vs; try reflexivity.
          cbn [fill_bin]. destruct (Nat.eqb c b); [destruct vs|]; cbn; rewrite IH; reflexivity. }
        rewrite LF. exact LS. }
    destruct H as [H|H]; rewrite H in E; cbn [String.eqb Ascii.eqb Bool.eqb inb] in E.
    - destruct (read_histogram (t_lines k)) as [[x y]|e]; cbn [bind ret] in E; [|discriminate].
      destruct (histogram_sampler G next scale order x y 1 g) as [[s1 g1]|e] eqn:EH; cbn [bind ret] in E; [|discriminate].
      apply HS in EH. destruct EH as (t & ->).
      change (py_in "log10" "custom_linear_histogram") with false in E. cbv iota in E. cbn [shaped_map] in E.
      eexists. assert (s = Scalar (fsub (dflt (t_max k) (dflt (t_sim k) age)) t)) as -> by (unfold ret in E; congruence). reflexivity.
    - destruct (read_histogram (t_lines k)) as [[x y]|e]; cbn [bind ret] in E; [|discriminate].
      destruct (histogram_sampler G next scale order x y 1 g) as [[s1 g1]|e] eqn:EH; cbn [bind ret] in E; [|discriminate].
      apply HS in EH. destruct EH as (t & ->).
      change (py_in "log10" "custom_log10_histogram") with true in E. cbv iota in E. cbn [shaped_map] in E.
      eexists. assert (s = Scalar (fsub (dflt (t_max k) (dflt (t_sim k) age)) (pow10 t))) as -> by (unfold ret in E; congruence). reflexivity.
  Qed.

  Lemma unknown_scenario : forall fuel n sf k g,
    ~ In (casefold_ascii sf) ["burst"; "constant"; "custom_linear"; "custom_log10";
                              "custom_linear_histogram"; "custom_log10_histogram"] ->
    times fuel n sf k g = Some (Raise ValueError).
  Proof using Type.
    intros fuel n sf k g H. unfold get_formation_times. set (s := casefold_ascii sf) in *. clearbody s.
    cbn [inb].
    repeat match goal with |- context [String.eqb s ?c] => destruct (String.eqb_spec s c) as [E|_];
      [exfalso; apply H; rewrite E; cbn; tauto|] end. reflexivity.
  Qed.
End Times.

Definition age13 : Q := (1380 # 1).
Definition kw_times : times_kw :=
  TimesKw (Some (3#1)) None (Some (100#1)) None (Ok ([1;2;5]%Q, [1;3;2]%Q))
          [Comment; Numbers [0;1;2]%Q; Empty; Numbers [1;3]%Q].
Notation ex_times := (get_formation_times N ex_next ex_scale (fun x => x) (fun a b => Qred (a - b)) (nodup Nat.eq_dec)
                       (fun _ _ _ => 1%Q) age13).

Theorem formation_burst : forall G next scale pow10 fsub order interp age fuel n sf k (g : G) t,
  casefold_ascii sf = "burst" -> t_burst k = Some t ->
  get_formation_times G next scale pow10 fsub order interp age fuel n sf k g = Some (Ok (Array (repeat t n), g)).
Proof. exact burst_ok. Qed.
Print Assumptions formation_burst.
Example formation_burst_case : ex_times 5 3 "BURST" kw_times 1%N = Some (Ok (Array [3;3;3]%Q, 1%N)).
Proof. vm_compute. reflexivity. Qed.

Theorem formation_constant : forall G (next : G -> Q * G) scale pow10 fsub order interp age fuel n sf k g,
  unit_stream next -> keeps_limits scale -> casefold_ascii sf = "constant" ->
  let t0 := match t_min k with Some t => t | None => 0%Q end in
  let t1 := match t_max k, t_sim k with Some t, _ => t | None, Some t => t | None, None => age end in
  (t0 <= t1)%Q ->
  exists l g', get_formation_times G next scale pow10 fsub order interp age fuel n sf k g = Some (Ok (Array l, g')) /\
    length l = n /\ Forall (fun t => t0 <= t /\ t <= t1)%Q l /\
    forall j, j < n -> nth_error l j = Some (scale t0 t1 (raw_at next g j)).
Proof.
  intros. destruct (constant_ok G next scale pow10 fsub order interp age fuel n sf k g H H0 H1 H2) as (l & A & B).
  exists l, (skip G next n g). split; [exact A | exact B].
Qed.
Print Assumptions formation_constant.
Example formation_constant_case : exists l g', ex_times 5 3 "constant" kw_times 1%N = Some (Ok (Array l, g')) /\ length l = 3.
Proof. eexists _, _. split; vm_compute; reflexivity. Qed.

Theorem formation_custom : forall G (next : G -> Q * G) scale pow10 fsub order interp age fuel n sf k g xs ys s g',
  unit_stream next -> keeps_limits scale ->
  casefold_ascii sf = "custom_linear" \/ casefold_ascii sf = "custom_log10" -> t_table k = Ok (xs, ys) ->
  get_formation_times G next scale pow10 fsub order interp age fuel n sf k g = Some (Ok (s, g')) ->
  exists ages lo hi top proposals, thinned next scale g (interp xs ys) lo hi top proposals ages /\
    In lo xs /\ In hi xs /\ (forall x, In x xs -> lo <= x /\ x <= hi)%Q /\
    length ages = n /\ Forall (fun a => lo <= a /\ a <= hi)%Q ages /\
    s = Array (map (fun a =>
          fsub (match t_max k, t_sim k with Some t, _ => t | None, Some t => t | None, None => age end)
               (if String.eqb (casefold_ascii sf) "custom_log10" then pow10 a else a)) ages).
Proof. exact custom_ok. Qed.
Print Assumptions formation_custom.
Example formation_custom_case : exists l g', ex_times 9 3 "custom_log10" kw_times 1%N = Some (Ok (Array l, g')) /\ length l = 3.
Proof. eexists _, _. split; vm_compute; reflexivity. Qed.

Theorem formation_unknown : forall G next scale pow10 fsub order interp age fuel n sf k (g : G),
  ~ In (casefold_ascii sf) ["burst"; "constant"; "custom_linear"; "custom_log10";
                            "custom_linear_histogram"; "custom_log10_histogram"] ->
  get_formation_times G next scale pow10 fsub order interp age fuel n sf k g = Some (Raise ValueError).
Proof. exact unknown_scenario. Qed.
Print Assumptions formation_unknown.

(** One time per binary is false for the histogram scenarios: a single value is drawn and
    returned, whatever the number of binaries. *)
Theorem formation_histogram_one : forall G (next : G -> Q * G) scale pow10 fsub order interp age fuel n sf k g s g',
  casefold_ascii sf = "custom_linear_histogram" \/ casefold_ascii sf = "custom_log10_histogram" ->
  get_formation_times G next scale pow10 fsub order interp age fuel n sf k g = Some (Ok (s, g')) ->
  (exists t, s = Scalar t) /\
  forall m, get_formation_times G next scale pow10 fsub order interp age fuel m sf k g = Some (Ok (s, g')).
Proof. exact histogram_one. Qed.
Print Assumptions formation_histogram_one.
Theorem formation_per_binary_refuted : exists t g', ex_times 5 7 "custom_linear_histogram" kw_times 1%N = Some (Ok (Scalar t, g')).
Proof. eexists _, _. vm_compute. reflexivity. Qed.

(** The histogram file is read only when it has exactly two lines of numbers, the edges and
    the heights, with one edge more than heights; everything else raises. *)
Definition numbers (lines : list hist_line) : list (list Q) :=
  flat_map (fun l => match l with Numbers x => [x] | _ => [] end) lines.
Lemma read_lines_ok : forall lines acc, length acc <= 2 ->
  read_lines acc lines = (if length (acc ++ numbers lines) <=? 2 then Ok (acc ++ numbers lines) else Raise IndexError).
Proof.
  induction lines as [|[| |l] lines IH]; intros acc L; cbn [read_lines].
  - cbn. rewrite app_nil_r. destruct (Nat.leb_spec (length acc) 2); [reflexivity | lia].
  - apply (IH acc L).
  - apply (IH acc L).
  - change (numbers (Numbers l :: lines)) with (l :: numbers lines).
    assert (length (acc ++ [l]) = S (length acc)) as E by (rewrite app_length; cbn; lia).
    rewrite E. destruct (Nat.ltb_spec 2 (S (length acc))).
    + destruct (Nat.leb_spec (length (acc ++ l :: numbers lines)) 2) as [H0|_]; [|reflexivity].
      rewrite app_length in H0. cbn [length] in H0. lia.
    + rewrite IH by lia. rewrite <- app_assoc. reflexivity.
Qed.
Theorem read_histogram_exact : forall lines,
  (forall x y, read_histogram lines = Ok (x, y) <-> numbers lines = [x; y] /\ length x = S (length y)) /\
  (forall e, read_histogram lines = Raise e -> e = IndexError).
Proof.
  intro lines. unfold read_histogram. rewrite read_lines_ok by (cbn; lia).
  change ([] ++ numbers lines) with (numbers lines).
  destruct (numbers lines) as [|x [|y [|z r]]]; cbn [length Nat.leb rbind].
  - split; [intros; split; [discriminate | intros [C _]; discriminate] | intros; congruence].
  - split; [intros; split; [discriminate | intros [C _]; discriminate] | intros; congruence].
  - destruct (Z.eqb_spec (Z.of_nat (length x) - 1) (Z.of_nat (length y))).
    + split; [|discriminate]. intros x' y'. split.
      * intro H. assert (x' = x /\ y' = y) as [-> ->] by (split; congruence). split; [reflexivity | lia].
      * intros [E _]. congruence.
    + split; [|intros; congruence]. intros x' y'. split; [discriminate|].
      intros [E L]. assert (x' = x /\ y' = y) as [-> ->] by (split; congruence). exfalso. lia.
  - split; [intros; split; [discriminate | intros [C _]; discriminate] | intros; congruence].
Qed.
Print Assumptions read_histogram_exact.
Example read_histogram_case :
  read_histogram [Comment; Numbers [0; 1; 2]%Q; Empty; Numbers [3; 4]%Q] = Ok ([0; 1; 2]%Q, [3; 4]%Q)
  /\ read_histogram [Numbers [0; 1]%Q; Numbers [3]%Q; Numbers []] = Raise IndexError.
Proof. split; reflexivity. Qed.
