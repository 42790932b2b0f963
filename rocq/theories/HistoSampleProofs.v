(** histogram_sampler: every value is drawn with its own raw number in the bin that the
    cumulative weights assign to another raw number. *)
From Coq Require Import String List ZArith QArith Bool Lia Lqa.
From Verif Require Import PyBase PyList SamplerModel SamplerSpec SamplerProofs ThinProofs.
Import ListNotations.
Open Scope nat_scope.

Lemma pick_cdf : forall ys acc target i, (acc <= target)%Q -> (target < acc + qsum ys)%Q ->
  Forall (fun y => 0 <= y)%Q ys ->
  exists k, pick acc target i ys = i + k /\ k < length ys /\
    (acc + weight_to ys k <= target)%Q /\ (target < acc + weight_to ys (S k))%Q.
Proof.
  induction ys as [|y ys IH]; intros acc target i A B F.
  - unfold qsum in B. cbn in B. exfalso. lra.
  - rewrite qsum_app1 in B. inversion F; subst. cbn [pick].
    destruct (Qle_bool (acc + y) target) eqn:E; cbn [negb].
    + apply Qle_bool_iff in E. destruct (IH (acc + y)%Q target (S i)) as (k & P & N & W1 & W2);
        [assumption | lra | assumption|].
      exists (S k). split; [lia|]. split; [cbn; lia|].
      change (weight_to (y :: ys) (S k)) with (y + weight_to ys k)%Q.
      change (weight_to (y :: ys) (S (S k))) with (y + weight_to ys (S k))%Q.
      split; lra.
    + exists 0. split; [lia|]. split; [cbn; lia|].
      change (weight_to (y :: ys) 0) with 0%Q. change (weight_to (y :: ys) 1) with (y + 0)%Q.
      assert (target < acc + y)%Q. { apply Qnot_le_lt. intro C. apply Qle_bool_iff in C. congruence. }
      split; lra.
Qed.

Lemma weight_all : forall ys, weight_to ys (length ys) = qsum ys.
Proof. intro. unfold weight_to. rewrite firstn_all. reflexivity. Qed.

Lemma choice_chosen : forall G (next : G -> Q * G), unit_stream next -> forall ys n g,
  Forall (fun y => 0 <= y)%Q ys -> ~ (qsum ys == 0)%Q ->
  snd (choice G next ys n g) = skip G next n g /\
  Forall2 (fun j b => chosen_bin ys (raw_at next g j) b) (seq 0 n) (fst (choice G next ys n g)).
Proof.
  intros G next U ys n g F N. unfold choice.
  pose proof (raws_at G next g n 0) as R. cbn [skip] in R. pose proof (raws_skip G next n g) as K.
  pose proof (raws_unit G next U n g) as UU.
  destruct (raws G next n g) as [us g1]. cbn [fst snd] in *. split; [exact K|]. subst us.
  assert (0 < qsum ys)%Q as P.
  { pose proof (qsum_nonneg ys F). destruct (Qlt_le_dec 0 (qsum ys)); [assumption|].
    exfalso. apply N. apply Qle_antisym; assumption. }
  clear N K. rewrite Forall_map in UU. rewrite map_map.
  induction UU as [|j js [A B] UU IH]; [constructor|]. cbn [map]. constructor; [|exact IH].
  destruct (pick_cdf ys 0 (raw_at next g j * qsum ys)%Q 0) as (k & E & L & X & Y).
  - apply Qmult_le_0_compat; lra.
  - setoid_replace (0 + qsum ys)%Q with (1 * qsum ys)%Q by ring. apply Qmult_lt_compat_r; assumption.
  - assumption.
  - rewrite E. cbn [plus]. split; [exact L|]. rewrite weight_all. split; lra.
Qed.

Lemma chosen_heavy : forall ys u b, chosen_bin ys u b -> exists w, nth_error ys b = Some w /\ (0 < w)%Q.
Proof.
  intros ys u b (L & A & B). destruct (nth_error ys b) as [w|] eqn:E; [|apply nth_error_None in E; lia].
  exists w. split; [reflexivity|].
  assert (weight_to ys (S b) == weight_to ys b + w)%Q.
  { clear -E. unfold weight_to. revert b E. induction ys as [|y ys IH]; intros [|b] E; try discriminate.
    - cbn in E. assert (y = w) as -> by congruence. cbn. ring.
    - cbn in E. apply IH in E. change (firstn (S (S b)) (y :: ys)) with (y :: firstn (S b) ys).
      change (firstn (S b) (y :: ys)) with (y :: firstn b ys). cbn [fold_right]. rewrite E. ring. }
  lra.
Qed.

Section Ghost.
  Variable G : Type.
  Variable next : G -> Q * G.
  Variable scale : Q -> Q -> Q -> Q.
  Variable g0 : G.
  Variable edges : list Q.

  (** A cell with its bin and the position of the raw number used for it. *)
  Definition cell (c : nat) (p : option nat) (s : option Q) : Prop :=
    match p, s with
    | Some p, Some v => drawn_in next scale g0 edges c p v
    | None, None => True
    | _, _ => False
    end.

  Fixpoint somes {A} (l : list (option A)) : list A :=
    match l with [] => [] | Some x :: l' => x :: somes l' | None :: l' => somes l' end.

  Inductive cells : list nat -> list (option nat) -> list (option Q) -> Prop :=
  | cells_nil : cells [] [] []
  | cells_cons : forall c p s cs ps ss, cell c p s -> cells cs ps ss -> cells (c :: cs) (p :: ps) (s :: ss).

  Lemma fill_cells : forall b lo hi, nth_error edges b = Some lo -> nth_error edges (S b) = Some hi ->
    forall bins ps ss, cells bins ps ss -> forall k n, n = count_occ Nat.eq_dec bins b ->
    NoDup (somes ps) -> (forall i, In i (somes ps) -> i < k) ->
    exists ps', cells bins ps' (fill_bin b bins ss (map (fun i => scale lo hi (raw_at next g0 i)) (seq k n))) /\
      NoDup (somes ps') /\
      (forall i, In i (somes ps') -> In i (somes ps) \/ k <= i < k + n) /\
      (forall c, In c bins -> c = b \/ ~ In (c, None) (combine bins ps) -> ~ In (c, None) (combine bins ps')).
  Proof.
    intros b lo hi EL EH bins ps ss C. induction C as [|c p s cs ps ss C1 C IH]; intros k n EN ND B.
    - exists []. split; [constructor|]. split; [constructor|]. split; [intros i []|intros c []].
    - cbn [count_occ] in EN. cbn [fill_bin].
      assert (NoDup (somes ps)) as ND'. { destruct p; cbn in ND; [inversion ND; assumption | assumption]. }
      assert (forall i, In i (somes ps) -> i < k) as B'.
      { intros i I. apply B. destruct p; cbn; [right|]; exact I. }
      destruct (Nat.eqb c b) eqn:E.
      + apply Nat.eqb_eq in E. subst c. destruct (Nat.eq_dec b b) as [_|]; [|congruence]. subst n. cbn [seq map].
        destruct (IH (S k) (count_occ Nat.eq_dec cs b) eq_refl ND') as (ps' & K & N & R & Z).
        { intros i I. apply B' in I. lia. }
        exists (Some k :: ps'). split.
        { constructor; [|exact K]. exists lo, hi. tauto. }
        cbn [somes]. split.
        { constructor; [|exact N]. intro I. apply R in I. destruct I as [I|I]; [apply B' in I|]; lia. }
        split.
        * intros i [<- |I]; [right; lia|]. apply R in I. destruct I as [I|I]; [|right; lia].
          left. destruct p; cbn; [right|]; exact I.
        * intros c I H. cbn [combine]. intros [X|X]; [discriminate|].
          assert (In c cs) as IC by (eapply in_combine_l; exact X).
          apply (Z c IC); [|exact X]. destruct H as [H|H]; [left; exact H | right]. intro Y. apply H. right. exact Y.
      + apply Nat.eqb_neq in E. destruct (Nat.eq_dec c b) as [|_]; [contradiction|].
        destruct (IH k n EN ND' B') as (ps' & K & N & R & Z).
        exists (p :: ps'). split; [constructor; assumption|]. split; [|split].
        * destruct p as [j|]; cbn [somes]; [|exact N]. constructor; [|exact N].
          cbn [somes] in ND. inversion ND; subst. intro I. apply R in I. destruct I as [I|I]; [contradiction|].
          assert (j < k) by (apply B; left; reflexivity). lia.
        * intros i I. destruct p as [j|]; cbn [somes] in *.
          -- destruct I as [<- |I]; [left; left; reflexivity|]. apply R in I. cbn [In]. tauto.
          -- apply R in I. tauto.
        * intros c' I H. cbn [combine]. intros [X|X].
          -- assert (c' = c) as -> by congruence. destruct H as [H|H]; [congruence|]. apply H. left. exact X.
          -- assert (In c' cs) as IC by (eapply in_combine_l; exact X).
             apply (Z c' IC); [|exact X]. destruct H as [H|H]; [left; exact H | right].
             intro Y. apply H. right. exact Y.
  Qed.

  Definition uses (order bins : list nat) : nat := list_sum (map (count_occ Nat.eq_dec bins) order).

  Lemma fill_all_cells : forall bins order k ps ss, Forall (fun b => S b < length edges) order ->
    cells bins ps ss -> NoDup (somes ps) -> (forall i, In i (somes ps) -> i < k) ->
    exists ps' ss', fill_bins G next scale edges order bins ss (skip G next k g0) =
        Ok (ss', skip G next (k + uses order bins) g0) /\
      cells bins ps' ss' /\ NoDup (somes ps') /\
      (forall i, In i (somes ps') -> In i (somes ps) \/ k <= i < k + uses order bins) /\
      (forall c, In c bins -> In c order \/ ~ In (c, None) (combine bins ps) -> ~ In (c, None) (combine bins ps')).
  Proof.
    intros bins. induction order as [|b order IH]; intros k ps ss B C ND LT.
    - exists ps, ss. cbn. rewrite Nat.add_0_r. split; [reflexivity|]. split; [exact C|]. split; [exact ND|].
      split; [tauto|]. intros c I [[]|H]. exact H.
    - inversion B; subst. cbn [fill_bins].
      destruct (nth_error edges b) as [lo|] eqn:EL; [|apply nth_error_None in EL; lia].
      destruct (nth_error edges (S b)) as [hi|] eqn:EH; [|apply nth_error_None in EH; lia].
      rewrite uniform_at. cbv iota.
      destruct (fill_cells b lo hi EL EH bins ps ss C k _ eq_refl ND LT) as (p1 & C1 & N1 & R1 & Z1).
      set (n := count_occ Nat.eq_dec bins b) in *.
      destruct (IH (k + n) p1 _ H2 C1 N1) as (p2 & s2 & E2 & C2 & N2 & R2 & Z2).
      { intros i I. apply R1 in I. destruct I as [I|I]; [apply LT in I|]; lia. }
      assert (uses (b :: order) bins = n + uses order bins) as UE by reflexivity.
      exists p2, s2. split; [rewrite E2, UE, Nat.add_assoc; reflexivity|].
      split; [exact C2|]. split; [exact N2|]. split.
      + intros i I. rewrite UE. apply R2 in I. destruct I as [I|I]; [|lia].
        apply R1 in I. destruct I as [I|I]; [tauto | lia].
      + intros c I H. apply Z2; [exact I|]. destruct H as [[-> |H]|H].
        * right. apply Z1; [exact I | left; reflexivity].
        * left. exact H.
        * right. apply Z1; [exact I | right; exact H].
  Qed.

  Lemma cells_done : forall bins ps ss, cells bins ps ss -> (forall c, In c bins -> ~ In (c, None) (combine bins ps)) ->
    exists l pos, all_some ss = Some l /\ somes ps = pos /\ length l = length bins /\ length pos = length bins /\
      forall j b, nth_error bins j = Some b -> exists p v, nth_error pos j = Some p /\ nth_error l j = Some v /\
        drawn_in next scale g0 edges b p v.
  Proof.
    intros bins ps ss C. induction C as [|c p s cs ps ss C1 C IH]; intro D.
    - exists [], []. split; [reflexivity|]. split; [reflexivity|]. split; [reflexivity|]. split; [reflexivity|].
      intros [|j] b X; discriminate.
    - destruct IH as (l & pos & E1 & E2 & L1 & L2 & N).
      { intros c' I X. apply (D c' (or_intror I)). right. exact X. }
      destruct p as [p|].
      2: { exfalso. apply (D c (or_introl eq_refl)). left. reflexivity. }
      destruct s as [v|]; [|destruct C1]. exists (v :: l), (p :: pos). cbn. rewrite E1, E2, L1, L2.
      split; [reflexivity|]. split; [reflexivity|]. split; [reflexivity|]. split; [reflexivity|].
      intros [|j] b X; cbn in X.
      + assert (c = b) as -> by congruence. exists p, v. split; [reflexivity|]. split; [reflexivity|]. exact C1.
      + apply N. exact X.
  Qed.

  Lemma cells_init : forall bins, cells bins (repeat None (length bins)) (repeat None (length bins)) .
  Proof. induction bins; cbn; constructor; [exact I | assumption]. Qed.
  Lemma somes_none : forall A n, somes (repeat (@None A) n) = [].
  Proof. induction n; [reflexivity | exact IHn]. Qed.
End Ghost.

Lemma count_others : forall order x bins, ~ In x order ->
  uses order (x :: bins) = uses order bins.
Proof.
  unfold uses. induction order as [|b order IH]; intros x bins N; [reflexivity|].
  cbn [map]. change (list_sum (?a :: ?l)) with (a + list_sum l).
  rewrite IH by (intro; apply N; right; assumption). cbn [count_occ].
  destruct (Nat.eq_dec x b) as [-> |]; [exfalso; apply N; left; reflexivity|]. reflexivity.
Qed.

Lemma uses_all : forall order bins, NoDup order -> (forall c, In c bins -> In c order) ->
  uses order bins = length bins.
Proof.
  intros order bins N. induction bins as [|x bins IH]; intro A.
  - clear N A. unfold uses. induction order; [reflexivity|]. cbn. exact IHorder.
  - cbn [length]. rewrite <- IH by (intros; apply A; right; assumption).
    assert (In x order) as I by (apply A; left; reflexivity). clear A IH.
    induction order as [|b order IHo]; [destruct I|]. inversion N; subst.
    unfold uses. cbn [map]. change (list_sum (?a :: ?l)) with (a + list_sum l).
    fold (uses order (x :: bins)). fold (uses order bins). cbn [count_occ].
    destruct (Nat.eq_dec x b) as [-> |D].
    + rewrite count_others by assumption. reflexivity.
    + rewrite IHo; [lia | assumption|]. destruct I as [I|I]; [congruence | exact I].
Qed.

Lemma histogram_drawn : forall G (next : G -> Q * G) scale, unit_stream next ->
  forall order edges ys size g,
  (forall l, NoDup (order l)) -> (forall l c, In c (order l) <-> In c l) ->
  Forall (fun y => 0 <= y)%Q ys -> ~ (qsum ys == 0)%Q -> length edges = length ys + 1 ->
  exists l pos, histogram_sampler G next scale order edges ys size g =
      Ok (match l with [x] => Scalar x | _ => Array l end, skip G next (2 * size) g) /\
    length l = size /\ length pos = size /\ NoDup pos /\ (forall p, In p pos -> size <= p < 2 * size) /\
    forall j, j < size -> exists b p v, nth_error pos j = Some p /\ nth_error l j = Some v /\
      chosen_bin ys (raw_at next g j) b /\ drawn_in next scale g edges b p v.
Proof.
  intros G next scale U order edges ys size g ND O F N L. unfold histogram_sampler.
  rewrite (proj2 (forallb_nonneg ys) F). cbn [negb].
  assert (0 < length ys) as P.
  { destruct ys; [exfalso; apply N; reflexivity | cbn; lia]. }
  apply Nat.ltb_lt in P. rewrite P. rewrite (proj2 (Nat.eqb_eq _ _) L). cbn [andb negb].
  destruct (Qeq_bool (qsum ys) 0) eqn:Z; [apply Qeq_bool_iff in Z; contradiction|].
  destruct (choice_chosen G next U ys size g F N) as [CS CF].
  destruct (choice G next ys size g) as [bins g1]. cbn [fst snd] in CS, CF. subst g1.
  assert (length bins = size) as LB.
  { rewrite <- (seq_length size 0). symmetry. clear -CF. induction CF; cbn; congruence. }
  assert (forall b, In b bins -> b < length ys) as BY.
  { intros b I. clear -CF I. induction CF as [|j b' js bins C CF IH]; [destruct I|].
    destruct I as [-> |I]; [exact (proj1 C) | exact (IH I)]. }
  assert (repeat (@None Q) size = repeat None (length bins)) as -> by (rewrite LB; reflexivity).
  assert (Forall (fun b => S b < length edges) (order bins)) as BO.
  { apply Forall_forall. intros b I. apply (proj1 (O bins b)) in I. apply BY in I. lia. }
  destruct (fill_all_cells G next scale g edges bins (order bins) size _ _
              BO
              (cells_init G next scale g edges bins)) as (ps & ss & E & C & NP & R & D).
  { rewrite somes_none. constructor. }
  { rewrite somes_none. intros i []. }
  rewrite E. rewrite uses_all in R, E |- * by (try apply ND; intros c I; apply O; exact I).
  destruct (cells_done G next scale g edges bins ps ss C) as (l & pos & E1 & E2 & L1 & L2 & NN).
  { intros c I. apply D; [exact I|]. left. apply O. exact I. }
  rewrite E1. exists l, pos. rewrite LB in *. split.
  { unfold squeeze. f_equal. f_equal. f_equal. lia. }
  split; [congruence|]. split; [congruence|]. split; [rewrite <- E2; exact NP|]. split.
  { intros p I. rewrite <- E2 in I. apply R in I. rewrite somes_none in I. destruct I as [[]|I]. lia. }
  intros j J. destruct (nth_error bins j) as [b|] eqn:EB.
  2: { apply nth_error_None in EB. lia. }
  destruct (NN j b EB) as (p & v & X & Y & W). exists b, p, v. split; [exact X|]. split; [exact Y|].
  split; [|exact W]. clear -CF EB J.
  assert (forall n k bins, Forall2 (fun j b => chosen_bin ys (raw_at next g j) b) (seq k n) bins ->
          forall j b, nth_error bins j = Some b -> chosen_bin ys (raw_at next g (k + j)) b) as HH.
  { induction n; intros k bs F j' b' X; inversion F; subst; destruct j'; try discriminate; cbn in X.
    - assert (y = b') as -> by congruence. rewrite Nat.add_0_r. assumption.
    - replace (k + S j') with (S k + j') by lia. eapply IHn; eassumption. }
  apply (HH size 0 bins CF j b EB).
Qed.
