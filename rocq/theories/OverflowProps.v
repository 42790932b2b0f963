(** C67: the boundary of initial Roche-lobe overflow. *)
From Coq Require Import String List Bool PeanoNat ZArith QArith Qabs Relations Lia Lqa.
From Verif Require Import PyBase PyList RloModel.
From Verif Require TFlagModel.
Import ListNotations.
Open Scope string_scope.
Open Scope nat_scope.
Open Scope list_scope.

(** ** Specification *)
Definition overflowing (r : run) : Prop := tf1 (fin r) = "Terminate because of overflowing initial model".
Definition close (a b : system) : Prop := (Qabs (sm1 a - sm1 b) < 1 # 100000)%Q /\ (Qabs (sm2 a - sm2 b) < 1 # 100000)%Q.
(** The system of a run. *)
Definition sys_of (r : run) (s : system) : Prop :=
  sm1 s = vm1 (ini r) /\ sm2 s = vm2 (ini r) /\ sper s = vper (ini r) /\ sflags s = Some (tf3 (fin r), tf4 (fin r)).
(** One system stands for another through steps of close masses and not shorter periods. *)
Definition stands_for : system -> system -> Prop := clos_refl_trans system (fun a b => close a b /\ (sper a <= sper b)%Q).
(** Closeness sorts the systems into separate groups. *)
Definition separate (l : list system) : Prop := forall a b c, In a l -> In b l -> In c l -> close a b -> close b c -> close a c.
Definition boundary (l d : list system) : Prop :=
  (forall e, In e d -> In e l) /\ (forall s, In s l -> exists e, In e d /\ stands_for s e) /\
  (separate l -> (forall i j a b, nth_error d i = Some a -> nth_error d j = Some b -> close a b -> i = j) /\
                 (forall s, In s l -> exists e, In e d /\ close s e /\ (sper s <= sper e)%Q)).
Definition dist2 (m1 m2 : Q) (s : system) : Q := ((m1 - sm1 s) * (m1 - sm1 s) + (m2 - sm2 s) * (m2 - sm2 s))%Q.
(** The first of the nearest systems. *)
Definition nearest_of (m1 m2 : Q) (l : list system) (e : system) : Prop :=
  exists i, nth_error l i = Some e /\ forall j s, nth_error l j = Some s ->
    (dist2 m1 m2 e <= dist2 m1 m2 s)%Q /\ (j < i -> (dist2 m1 m2 e < dist2 m1 m2 s)%Q).
(** The boundary to compare with: none below twenty systems. *)
Definition limit_at (m1 m2 : Q) (l : list system) (e : system) : Prop :=
  (length l < 20 /\ sper e = 0%Q /\ sflags e = None) \/ (20 <= length l /\ nearest_of m1 m2 l e).
Definition in_range (m1 m2 : Q) (l : list system) : Prop := Forall (fun s => (dist2 m1 m2 s < inject_Z (10 ^ 99))%Q) l.

(** ** Lemmas *)
Lemma qlt_iff a b : qlt a b = true <-> (a < b)%Q.
Proof.
  unfold qlt. rewrite negb_true_iff. split.
  - intros H. apply Qnot_le_lt. intros L. apply Qle_bool_iff in L. congruence.
  - intros H. destruct (Qle_bool b a) eqn:E; [|reflexivity]. apply Qle_bool_iff in E. lra.
Qed.
Lemma qlt_false a b : qlt a b = false <-> (b <= a)%Q.
Proof. unfold qlt. rewrite negb_false_iff. apply Qle_bool_iff. Qed.
Lemma same_masses_iff a b : same_masses a b = true <-> close a b.
Proof. unfold same_masses, close. rewrite andb_true_iff, !qlt_iff. reflexivity. Qed.
Lemma close_sym a b : close a b -> close b a.
Proof. unfold close. rewrite (Qabs_Qminus (sm1 b)), (Qabs_Qminus (sm2 b)). tauto. Qed.
Lemma close_refl a : close a a.
Proof.
  assert (Z : forall x, (Qabs (x - x) < 1 # 100000)%Q).
  { intros x. setoid_replace (x - x)%Q with 0%Q by ring. reflexivity. }
  split; apply Z.
Qed.
Lemma add_in d x e : In e (add_system d x) -> In e d \/ e = x.
Proof.
  unfold add_system. destruct (existsb _ d); intros I.
  - apply in_map_iff in I as (y & E & I). destruct (same_masses y x && qlt (sper y) (sper x)); subst; auto.
  - apply in_app_iff in I as [I|[I|[]]]; auto.
Qed.
Lemma fold_in : forall l d e, In e (fold_left add_system l d) -> In e d \/ In e l.
Proof.
  induction l as [|x l IH]; intros d e I; cbn in I; [left; exact I|]. apply IH in I as [I|I]; [|right; right; exact I].
  apply add_in in I as [I| ->]; [left; exact I|right; left; reflexivity].
Qed.
Lemma add_old d x e : In e d -> exists e', In e' (add_system d x) /\ (e' = e \/ (e' = x /\ close e x /\ (sper e < sper x)%Q)).
Proof.
  intros I. unfold add_system. destruct (existsb (fun d0 => same_masses d0 x) d) eqn:E.
  - exists (if same_masses e x && qlt (sper e) (sper x) then x else e).
    split; [exact (in_map (fun d0 => if same_masses d0 x && qlt (sper d0) (sper x) then x else d0) d e I)|].
    destruct (same_masses e x && qlt (sper e) (sper x)) eqn:Q; [|left; reflexivity]. right. apply andb_true_iff in Q as [A B].
    apply same_masses_iff in A. apply qlt_iff in B. auto.
  - exists e. split; [apply in_app_iff; left; exact I|left; reflexivity].
Qed.
Lemma add_new d x : exists e, In e (add_system d x) /\ close x e /\ (sper x <= sper e)%Q.
Proof.
  unfold add_system. destruct (existsb (fun d0 => same_masses d0 x) d) eqn:E.
  - apply existsb_exists in E as (y & I & C). exists (if same_masses y x && qlt (sper y) (sper x) then x else y).
    split; [exact (in_map (fun d0 => if same_masses d0 x && qlt (sper d0) (sper x) then x else d0) d y I)|].
    rewrite C. apply same_masses_iff, close_sym in C. cbn [andb]. destruct (qlt (sper y) (sper x)) eqn:Q.
    + split; [apply close_refl|lra].
    + apply qlt_false in Q. auto.
  - exists x. split; [apply in_app_iff; right; left; reflexivity|]. split; [apply close_refl|lra].
Qed.
Lemma old_stands : forall l d e, In e d -> exists e', In e' (fold_left add_system l d) /\ stands_for e e'.
Proof.
  induction l as [|x l IH]; intros d e I; cbn; [exists e; split; [exact I|apply rt_refl]|].
  destruct (add_old d x e I) as (e1 & I1 & [-> |(-> & C & L)]); [exact (IH _ _ I1)|].
  destruct (IH _ _ I1) as (e2 & I2 & S2). exists e2. split; [exact I2|]. eapply rt_trans; [apply rt_step|exact S2]. split; [exact C|lra].
Qed.
Lemma all_stand : forall l d e, In e l -> exists e', In e' (fold_left add_system l d) /\ stands_for e e'.
Proof.
  induction l as [|x l IH]; intros d e I; [destruct I|]. cbn. destruct I as [-> |I]; [|exact (IH _ _ I)].
  destruct (add_new d e) as (e1 & I1 & C & L). destruct (old_stands l _ _ I1) as (e2 & I2 & S2).
  exists e2. split; [exact I2|]. eapply rt_trans; [apply rt_step|exact S2]. auto.
Qed.
Definition apart (d : list system) : Prop := forall i j a b, nth_error d i = Some a -> nth_error d j = Some b -> close a b -> i = j.
Lemma add_apart all d x : separate all -> (forall e, In e d -> In e all) -> In x all -> apart d -> apart (add_system d x).
Proof.
  intros SP SUB IX AP. unfold add_system. destruct (existsb (fun d0 => same_masses d0 x) d) eqn:E.
  - intros i j a b A B C. rewrite nth_error_map in A, B.
    destruct (nth_error d i) as [a0|] eqn:A0; [|discriminate]. destruct (nth_error d j) as [b0|] eqn:B0; [|discriminate].
    cbn in A, B. injection A as <-. injection B as <-. apply (AP i j a0 b0 A0 B0).
    assert (IA : In a0 all) by (apply SUB; eapply nth_error_In; eauto). assert (IB : In b0 all) by (apply SUB; eapply nth_error_In; eauto).
    assert (CX : forall y, same_masses y x && qlt (sper y) (sper x) = true -> close y x).
    { intros y Q. apply andb_true_iff in Q as [Q _]. apply same_masses_iff. exact Q. }
    destruct (same_masses a0 x && qlt (sper a0) (sper x)) eqn:QA; destruct (same_masses b0 x && qlt (sper b0) (sper x)) eqn:QB.
    + apply (SP a0 x b0); auto using close_sym.
    + apply (SP a0 x b0); auto.
    + apply (SP a0 x b0); auto using close_sym.
    + exact C.
  - assert (NC : forall e, In e d -> ~ close e x).
    { intros e I C. apply same_masses_iff in C. assert (existsb (fun d0 => same_masses d0 x) d = true) by (apply existsb_exists; eauto). congruence. }
    intros i j a b A B C. destruct (lt_dec i (length d)) as [LI|LI]; destruct (lt_dec j (length d)) as [LJ|LJ].
    + rewrite nth_error_app1 in A, B by assumption. exact (AP i j a b A B C).
    + exfalso. rewrite nth_error_app1 in A by assumption. rewrite nth_error_app2 in B by lia.
      assert (b = x). { destruct (j - length d) as [|k]; [injection B as <-; reflexivity|destruct k; discriminate]. } subst.
      eapply NC; [eapply nth_error_In; exact A|exact C].
    + exfalso. rewrite nth_error_app1 in B by assumption. rewrite nth_error_app2 in A by lia.
      assert (a = x). { destruct (i - length d) as [|k]; [injection A as <-; reflexivity|destruct k; discriminate]. } subst.
      eapply NC; [eapply nth_error_In; exact B|apply close_sym; exact C].
    + assert (i < length (d ++ [x])) by (apply nth_error_Some; congruence). assert (j < length (d ++ [x])) by (apply nth_error_Some; congruence).
      rewrite app_length in *. cbn in *. lia.
Qed.
Lemma fold_apart all : separate all -> forall l d, (forall e, In e d -> In e all) -> (forall e, In e l -> In e all) -> apart d -> apart (fold_left add_system l d).
Proof.
  intros SP. induction l as [|x l IH]; intros d SD SL AP; cbn; [exact AP|]. apply IH.
  - intros e I. apply add_in in I as [I| ->]; [apply SD; exact I|apply SL; left; reflexivity].
  - intros e I. apply SL. right. exact I.
  - apply (add_apart all); auto. apply SL. left. reflexivity.
Qed.
(** With separate groups, every system of the list keeps a close entry. *)
Lemma keep_close all : separate all -> forall l d s e, (forall x, In x l -> In x all) -> (forall x, In x d -> In x all) -> In s all ->
  In e d -> close s e -> exists e', In e' (fold_left add_system l d) /\ close s e' /\ (sper e <= sper e')%Q.
Proof.
  intros SP. induction l as [|x l IH]; intros d s e SL SD IS I C; cbn; [exists e; split; [exact I|split; [exact C|lra]]|].
  assert (SD' : forall y, In y (add_system d x) -> In y all).
  { intros y Y. apply add_in in Y as [Y| ->]; [apply SD; exact Y|apply SL; left; reflexivity]. }
  assert (SL' : forall y, In y l -> In y all) by (intros y Y; apply SL; right; exact Y).
  destruct (add_old d x e I) as (e1 & I1 & [-> |(-> & CX & L)]); [apply (IH _ s e); auto|].
  destruct (IH (add_system d x) s x SL' SD' IS I1) as (e2 & I2 & C2 & L2).
  - apply (SP s e x); auto; apply SL; left; reflexivity.
  - exists e2. split; [exact I2|]. split; [exact C2|lra].
Qed.
Lemma fold_boundary l : boundary l (fold_left add_system l []).
Proof.
  split; [|split].
  - intros e I. apply fold_in in I as [[]|I]. exact I.
  - intros s I. apply all_stand. exact I.
  - intros SP. split.
    + apply (fold_apart l SP l []); [intros e []|auto|]. intros i j a b A. destruct i; discriminate.
    + assert (G : forall l' d, (forall x, In x l' -> In x l) -> (forall x, In x d -> In x l) ->
        forall s, In s l' -> exists e, In e (fold_left add_system l' d) /\ close s e /\ (sper s <= sper e)%Q).
      { induction l' as [|x l' IH]; intros d SL SD s I; [destruct I|]. cbn.
        assert (SD' : forall y, In y (add_system d x) -> In y l).
        { intros y Y. apply add_in in Y as [Y| ->]; [apply SD; exact Y|apply SL; left; reflexivity]. }
        assert (SL' : forall y, In y l' -> In y l) by (intros y Y; apply SL; right; exact Y).
        destruct I as [-> |I]; [|apply IH; auto].
        destruct (add_new d s) as (e1 & I1 & C & L).
        destruct (keep_close l SP l' (add_system d s) s e1 SL' SD' (SL s (or_introl eq_refl)) I1 C) as (e2 & I2 & C2 & L2).
        exists e2. split; [exact I2|]. split; [exact C2|lra]. }
      apply G; [auto|intros x []].
Qed.
Lemma detected_fold grid : get_detected_initial_RLO grid = fold_left add_system (map system_of (filter (fun r => String.eqb (tf1 (fin r)) OVERFLOWING) grid)) [].
Proof.
  unfold get_detected_initial_RLO. generalize (@nil system). induction grid as [|r grid IH]; intros d; [reflexivity|]. cbn.
  destruct (String.eqb (tf1 (fin r)) OVERFLOWING); cbn; apply IH.
Qed.
Lemma merged_fold grids : merge_detected grids = fold_left add_system (concat (map get_detected_initial_RLO grids)) [].
Proof.
  unfold merge_detected. generalize (@nil system). induction grids as [|g grids IH]; intros d; [reflexivity|]. cbn [fold_left map concat].
  rewrite fold_left_app. apply IH.
Qed.
Lemma systems_in grid s : In s (map system_of (filter (fun r => String.eqb (tf1 (fin r)) OVERFLOWING) grid)) <-> exists r, In r grid /\ overflowing r /\ sys_of r s.
Proof.
  rewrite in_map_iff. split.
  - intros (r & <- & I). apply filter_In in I as [I E]. apply String.eqb_eq in E. exists r. split; [exact I|]. split; [exact E|]. repeat split.
  - intros (r & I & O & A & B & C & D). exists r. split; [destruct s; cbn in *; unfold system_of; congruence|].
    apply filter_In. split; [exact I|]. apply String.eqb_eq. exact O.
Qed.

(** ** C67: the detected systems *)
Theorem C67_detected : forall grid l, (forall s, In s l <-> exists r, In r grid /\ overflowing r /\ sys_of r s) ->
  boundary l (get_detected_initial_RLO grid).
Proof.
  intros grid l H. rewrite detected_fold. set (l' := map _ _). assert (E : forall s, In s l <-> In s l').
  { intros s. rewrite H. symmetry. apply systems_in. }
  destruct (fold_boundary l') as (A & B & C). split; [|split].
  - intros e I. apply E, A, I.
  - intros s I. apply B, E, I.
  - intros SP. destruct C as [C1 C2]; [intros a b c Ia Ib Ic; apply SP; apply E; assumption|].
    split; [exact C1|]. intros s I. apply C2, E, I.
Qed.
Theorem C67_merged : forall grids l, (forall s, In s l <-> exists g r, In g grids /\ In r g /\ overflowing r /\ sys_of r s) ->
  boundary l (merge_detected grids).
Proof.
  intros grids l H. rewrite merged_fold. set (m := concat _).
  assert (ML : forall e, In e m -> In e l).
  { intros e I. apply in_concat in I as (d & D & I). apply in_map_iff in D as (g & <- & G). rewrite detected_fold in I.
    apply fold_in in I as [[]|I]. apply systems_in in I as (r & X). apply H. exists g, r. tauto. }
  assert (LM : forall s, In s l -> exists g d, In g grids /\ d = get_detected_initial_RLO g /\ In s (map system_of (filter (fun r => String.eqb (tf1 (fin r)) OVERFLOWING) g))).
  { intros s I. apply H in I as (g & r & G & R & X). exists g, (get_detected_initial_RLO g). repeat split; auto. apply systems_in. eauto. }
  destruct (fold_boundary m) as (A & B & C). split; [|split].
  - intros e I. apply ML, A, I.
  - intros s I. destruct (LM s I) as (g & d & G & -> & S). destruct (fold_boundary (map system_of (filter (fun r => String.eqb (tf1 (fin r)) OVERFLOWING) g))) as (_ & B1 & _).
    destruct (B1 s S) as (e1 & I1 & S1). rewrite <- detected_fold in I1.
    destruct (B e1) as (e2 & I2 & S2); [apply in_concat; exists (get_detected_initial_RLO g); split; [apply in_map; exact G|exact I1]|].
    exists e2. split; [exact I2|]. eapply rt_trans; eauto.
  - intros SP. assert (SM : separate m) by (intros a b c Ia Ib Ic; apply SP; apply ML; assumption). destruct (C SM) as [C1 C2]. split; [exact C1|].
    intros s I. destruct (LM s I) as (g & d & G & -> & S).
    set (lg := map system_of (filter (fun r => String.eqb (tf1 (fin r)) OVERFLOWING) g)) in *.
    assert (SUBG : forall x, In x lg -> In x l) by (intros x X; apply systems_in in X as (r & X1); apply H; exists g, r; tauto).
    assert (SG : separate lg) by (intros a b c Ia Ib Ic; apply SP; apply SUBG; assumption).
    destruct (fold_boundary lg) as (A1 & _ & Cg). destruct (Cg SG) as [_ C2g]. destruct (C2g s S) as (e1 & I1 & K1 & L1).
    unfold lg in I1. rewrite <- detected_fold in I1.
    assert (IM : In e1 m) by (apply in_concat; exists (get_detected_initial_RLO g); split; [apply in_map; exact G|exact I1]).
    destruct (C2 e1 IM) as (e2 & I2 & K2 & L2). exists e2. split; [exact I2|]. split; [|lra].
    apply (SP s e1 e2); auto.
Qed.
(** Systems within the tolerance of each other do not form groups in general: here one new system replaces two entries. *)
Definition sysq (m p : Q) : system := System m 5 p (Some ("a", "b")).
Theorem C67_apart_refuted : exists d1 d2 d3 : system,
  ~ close d1 d2 /\ close d1 d3 /\ close d2 d3 /\ fold_left add_system [ d1; d2; d3 ] [] = [ d3; d3 ].
Proof.
  exists (sysq 10 1), (sysq (10 + (18 # 1000000)) 1), (sysq (10 + (9 # 1000000)) 2).
  split; [intros [A _]; vm_compute in A; discriminate|]. split; [split; reflexivity|]. split; [split; reflexivity|]. reflexivity.
Qed.
(** And an entry may drift away from the system it stands for. *)
Theorem C67_close_refuted : exists d1 d2 d3 : system, ~ close d1 d3 /\ fold_left add_system [ d1; d2; d3 ] [] = [ d3 ].
Proof.
  exists (sysq 10 1), (sysq (10 + (9 # 1000000)) 2), (sysq (10 + (18 # 1000000)) 3).
  split; [intros [A _]; vm_compute in A; discriminate|]. reflexivity.
Qed.
Print Assumptions C67_detected.
Print Assumptions C67_merged.
Print Assumptions C67_apart_refuted.
Print Assumptions C67_close_refuted.

(** ** The nearest system *)
Lemma loop_spec m1 m2 : forall l d2 e,
  (nearest_loop m1 m2 l d2 e = e /\ Forall (fun s => (d2 <= dist2 m1 m2 s)%Q) l) \/
  (nearest_of m1 m2 l (nearest_loop m1 m2 l d2 e) /\ (dist2 m1 m2 (nearest_loop m1 m2 l d2 e) < d2)%Q).
Proof.
  induction l as [|s l IH]; intros d2 e; [left; split; [reflexivity|constructor]|]. cbn [nearest_loop]. cbv zeta. fold (dist2 m1 m2 s).
  destruct (qlt (dist2 m1 m2 s) d2) eqn:Q.
  - apply qlt_iff in Q. right. destruct (IH (dist2 m1 m2 s) s) as [[E F]|[(i & N & M) L]].
    + rewrite E. split; [|exact Q]. exists 0. split; [reflexivity|]. intros [|j] t T.
      * injection T as <-. split; [lra|lia].
      * cbn in T. rewrite Forall_forall in F. apply nth_error_In in T. split; [apply F; exact T|lia].
    + split; [|lra]. exists (S i). split; [exact N|]. intros [|j] t T.
      * injection T as <-. split; [lra|intros _; exact L].
      * cbn in T. destruct (M j t T) as [M1 M2]. split; [exact M1|]. intros J. apply M2. lia.
  - apply qlt_false in Q. destruct (IH d2 e) as [[E F]|[(i & N & M) L]].
    + left. rewrite E. split; [reflexivity|]. constructor; [exact Q|exact F].
    + right. split; [|exact L]. exists (S i). split; [exact N|]. intros [|j] t T.
      * injection T as <-. split; [lra|intros _; lra].
      * cbn in T. destruct (M j t T) as [M1 M2]. split; [exact M1|]. intros J. apply M2. lia.
Qed.
Theorem C67_nearest : forall m1 m2 l, in_range m1 m2 l -> limit_at m1 m2 l (get_nearest_known_initial_RLO m1 m2 l).
Proof.
  intros m1 m2 l R. unfold get_nearest_known_initial_RLO, MIN_COUNT_INITIAL_RLO_BOUNDARY.
  destruct (Nat.ltb_spec (length l) 20) as [L|L]; [left; repeat split; exact L|]. right. split; [exact L|].
  destruct (loop_spec m1 m2 l (inject_Z (10 ^ 99)) nothing) as [[_ F]|[N _]]; [|exact N].
  destruct l as [|s l]; [cbn in L; lia|]. inversion R as [|? ? R1 _]. inversion F as [|? ? F1 _]. subst. exfalso. lra.
Qed.
Lemma nearest_unique m1 m2 l a b : nearest_of m1 m2 l a -> nearest_of m1 m2 l b -> a = b.
Proof.
  intros (i & A & HA) (j & B & HB). destruct (HA j b B) as [A1 A2]. destruct (HB i a A) as [B1 B2].
  destruct (lt_eq_lt_dec i j) as [[L|E]|L].
  - specialize (B2 L). exfalso. lra.
  - subst. congruence.
  - specialize (A2 L). exfalso. lra.
Qed.
Print Assumptions C67_nearest.

(** ** Runs below the boundary *)
(** What the grid point file says, if it does, else the initial value. *)
Definition said (p : list (string * Q)) (k : string) (default v : Q) : Prop :=
  (exists rest pre, p = pre ++ (k, v) :: rest /\ ~ In k (map fst pre)) \/ (~ In k (map fst p) /\ v = default).
Definition forced_flags (e : system) (f f' : flags) : Prop :=
  tf1 f' = "forced_initial_RLO" /\ tf2 f' = "forced_initial_RLO" /\ icls f' = "initial_MT" /\
  match sflags e with Some (a, b) => tf3 f' = a /\ tf4 f' = b | None => tf3 f' = tf3 f /\ tf4 f' = tf4 f end.
Lemma get_or_said k d p : said p k d (get_or k d p).
Proof.
  unfold get_or. induction p as [|[k' x] p IH]; [right; split; [intros []|reflexivity]|]. cbn [dget]. destruct (String.eqb_spec k k') as [-> |N].
  - left. exists p, []. split; [reflexivity|intros []].
  - destruct IH as [(rest & pre & E & I)|[I E]].
    + left. exists rest, ((k', x) :: pre). split; [cbn; rewrite E at 1; reflexivity|]. cbn. intros [H|H]; [congruence|contradiction].
    + right. split; [|exact E]. cbn. intros [H|H]; [congruence|contradiction].
Qed.
Lemma forced_spec e f : forced_flags e f (forced e f).
Proof. unfold forced_flags, forced. destruct (sflags e) as [[a b]|]; repeat split. Qed.
Lemma limit_unique m1 m2 l a b : limit_at m1 m2 l a -> limit_at m1 m2 l b -> sper a = sper b /\ sflags a = sflags b.
Proof.
  intros [(L1 & P1 & F1)|[L1 N1]] [(L2 & P2 & F2)|[L2 N2]]; try lia; [split; congruence|]. rewrite (nearest_unique m1 m2 l a b N1 N2). auto.
Qed.

Theorem C67_join : forall known r e, ~ overflowing r -> tf1 (fin r) <> "forced_initial_RLO" -> in_range (vm1 (ini r)) (vm2 (ini r)) known ->
  limit_at (vm1 (ini r)) (vm2 (ini r)) known e ->
  ((vper (ini r) < sper e)%Q -> path (join_fix known r) = path r /\ ini (join_fix known r) = ini r /\ forced_flags e (fin r) (fin (join_fix known r))) /\
  ((sper e <= vper (ini r))%Q -> join_fix known r = r).
Proof.
  intros known r e O F R L. unfold join_fix.
  destruct (String.eqb_spec (tf1 (fin r)) OVERFLOWING) as [E|_]; [exfalso; apply O; exact E|].
  destruct (String.eqb_spec (tf1 (fin r)) "forced_initial_RLO") as [E|_]; [contradiction|]. cbn [orb].
  destruct (limit_unique _ _ _ _ _ L (C67_nearest _ _ _ R)) as [P FL]. split; intros Q.
  - cbv zeta. rewrite <- P. rewrite (proj2 (qlt_iff _ _) Q). repeat split; unfold forced; rewrite <- FL; unfold forced_flags; destruct (sflags e) as [[a b]|]; repeat split.
  - cbv zeta. rewrite <- P. rewrite (proj2 (qlt_false _ _) Q). reflexivity.
Qed.
Theorem C67_join_kept : forall known r, overflowing r \/ tf1 (fin r) = "forced_initial_RLO" -> join_fix known r = r.
Proof. intros known r [E|E]; unfold join_fix; unfold overflowing in *; rewrite E; reflexivity. Qed.
(** The forced flags belong to the class given with them. *)
Theorem C67_class : forall e f f', forced_flags e f f' -> TFlagModel.infer_interpolation_class (tf1 f') (tf2 f') = icls f'.
Proof. intros e f f' (A & B & C & _). rewrite A, B, C. reflexivity. Qed.
(** Joining twice changes no more. *)
Theorem C67_join_twice : forall known r, join_fix known (join_fix known r) = join_fix known r.
Proof.
  intros known r. destruct (String.eqb (tf1 (fin r)) OVERFLOWING || String.eqb (tf1 (fin r)) "forced_initial_RLO") eqn:E.
  - assert (J : join_fix known r = r) by (unfold join_fix; rewrite E; reflexivity). rewrite !J. reflexivity.
  - set (n := get_nearest_known_initial_RLO (vm1 (ini r)) (vm2 (ini r)) known). destruct (qlt (vper (ini r)) (sper n)) eqn:Q.
    + apply C67_join_kept. right. unfold join_fix. rewrite E. cbv zeta. fold n. rewrite Q. cbn. unfold forced. destruct (sflags n) as [[a b]|]; reflexivity.
    + assert (J : join_fix known r = r) by (unfold join_fix; rewrite E; cbv zeta; fold n; rewrite Q; reflexivity). rewrite !J. reflexivity.
Qed.

(** ** Creation *)
(** A column that the tables have: the three named ones or one of the others. *)
Definition column (v : values) (k : string) : option Q :=
  if String.eqb k "star_1_mass" then Some (vm1 v) else if String.eqb k "star_2_mass" then Some (vm2 v)
  else if String.eqb k "period_days" then Some (vper v) else dget String.eqb (others v) k.
Definition last_said (p : list (string * Q)) (k : string) (v : Q) : Prop := exists pre post, p = pre ++ (k, v) :: post /\ ~ In k (map fst post).
Definition rewritten (p : list (string * Q)) (v v' : values) : Prop := forall k,
  (forall x, last_said p k x -> column v k <> None -> column v' k = Some x) /\
  (~ In k (map fst p) -> column v' k = column v k) /\ (column v k = None -> column v' k = None).
Lemma set_value_column v k x k' : column (set_value v (k, x)) k' = if String.eqb k k' then match column v k with Some _ => Some x | None => None end else column v k'.
Proof.
  unfold set_value, column.
  destruct (String.eqb_spec k "star_1_mass") as [-> |N1]; [|destruct (String.eqb_spec k "star_2_mass") as [-> |N2]; [|destruct (String.eqb_spec k "period_days") as [-> |N3]]].
  - cbn [vm1 vm2 vper others]. rewrite (String.eqb_sym "star_1_mass" k'). destruct (String.eqb k' "star_1_mass"); reflexivity.
  - cbn [vm1 vm2 vper others]. rewrite (String.eqb_sym "star_2_mass" k'). destruct (String.eqb_spec k' "star_1_mass") as [-> |_]; [reflexivity|].
    destruct (String.eqb k' "star_2_mass"); reflexivity.
  - cbn [vm1 vm2 vper others]. rewrite (String.eqb_sym "period_days" k'). destruct (String.eqb_spec k' "star_1_mass") as [-> |_]; [reflexivity|].
    destruct (String.eqb_spec k' "star_2_mass") as [-> |_]; [reflexivity|]. destruct (String.eqb k' "period_days"); reflexivity.
  - assert (EX : existsb (fun p => String.eqb k (fst p)) (others v) = match dget String.eqb (others v) k with Some _ => true | None => false end).
    { induction (others v) as [|[k0 x0] l IH]; [reflexivity|]. cbn. destruct (String.eqb k k0); [reflexivity|exact IH]. }
    rewrite EX. destruct (dget String.eqb (others v) k) as [y|] eqn:G.
    + cbn [vm1 vm2 vper others]. rewrite (dget_dset String.eqb_spec). rewrite (String.eqb_sym k' k).
      destruct (String.eqb_spec k k') as [<-|N].
      * rewrite (proj2 (String.eqb_neq k _) N1), (proj2 (String.eqb_neq k _) N2), (proj2 (String.eqb_neq k _) N3). reflexivity.
      * reflexivity.
    + destruct (String.eqb_spec k k') as [<-|N]; [|reflexivity].
      rewrite (proj2 (String.eqb_neq k _) N1), (proj2 (String.eqb_neq k _) N2), (proj2 (String.eqb_neq k _) N3). exact G.
Qed.
Lemma rewritten_fold : forall p v, rewritten p v (fold_left set_value p v).
Proof.
  induction p as [|[k x] p IH] using rev_ind; intros v k'.
  - cbn. split; [intros y (pre & post & E & _); destruct pre; discriminate|]. auto.
  - rewrite fold_left_app. cbn [fold_left]. rewrite set_value_column. destruct (IH v k') as (A & B & C). destruct (String.eqb_spec k k') as [<-|N].
    + assert (CN : column (fold_left set_value p v) k = None <-> column v k = None).
      { split; [|exact C]. intros Q. destruct (column v k) as [y|] eqn:Y; [|reflexivity]. exfalso.
        destruct (in_dec string_dec k (map fst p)) as [I|I].
        - assert (LS : exists z, last_said p k z).
          { clear -I. induction p as [|[k0 x0] p IH] using rev_ind; [destruct I|]. rewrite map_app, in_app_iff in I. cbn in I.
            destruct (string_dec k0 k) as [-> |N]; [exists x0, p, []; split; [reflexivity|intros []]|].
            destruct I as [I|[I|[]]]; [|congruence]. destruct (IH I) as (z & pre & post & -> & NI).
            exists z, pre, (post ++ [(k0, x0)]). rewrite <- app_assoc. split; [reflexivity|]. rewrite map_app, in_app_iff. cbn. intuition. }
          destruct LS as [z LS]. rewrite (A z LS) in Q by discriminate. discriminate.
        - rewrite (B I) in Q. congruence. }
      split; [|split].
      * intros y (pre & post & E & NI) H.
        assert (y = x).
        { destruct post as [|q post] using rev_ind.
          - apply app_inj_tail in E as [_ E]. congruence.
          - clear IHpost. rewrite app_comm_cons, app_assoc in E. apply app_inj_tail in E as [_ E]. subst q. exfalso. apply NI.
            rewrite map_app, in_app_iff. right. left. reflexivity. }
        subst. destruct (column (fold_left set_value p v) k) eqn:Q; [reflexivity|]. exfalso. apply H, CN. reflexivity.
      * rewrite map_app, in_app_iff. cbn. tauto.
      * intros H. rewrite (proj2 CN H). reflexivity.
    + split; [|split].
      * intros y (pre & post & E & NI) H. apply (A y); [|exact H]. destruct post as [|q post] using rev_ind.
        -- apply app_inj_tail in E as [_ E]. congruence.
        -- clear IHpost. rewrite app_comm_cons, app_assoc in E. apply app_inj_tail in E as [E _]. exists pre, post. split; [exact E|].
           rewrite map_app, in_app_iff in NI. tauto.
      * rewrite map_app, in_app_iff. intros H. apply B. tauto.
      * exact C.
Qed.

(** What becomes of one run: [i] and [i'] are its rows before and after. *)
Definition outcome (known : list system) (s s' : slot) (i' : option nat) : Prop :=
  overflowing (srun s) /\ srun s' = srun s /\ i' = at_index s \/
  ~ overflowing (srun s) /\ exists p m1 m2 per e, grid_point s = Some p /\ said p "star_1_mass" (vm1 (ini (srun s))) m1 /\
    said p "star_2_mass" (vm2 (ini (srun s))) m2 /\ said p "period_days" (vper (ini (srun s))) per /\ e = get_nearest_known_initial_RLO m1 m2 known /\
    ((sper e <= per)%Q /\ srun s' = srun s /\ i' = at_index s \/
     (per < sper e)%Q /\ path (srun s') = path (srun s) /\ forced_flags e (fin (srun s)) (fin (srun s')) /\
       rewritten p (ini (srun s)) (ini (srun s')) /\ i' <> None /\ (forall k, at_index s = Some k -> i' = Some k)).
(** Rows and directories agree: every row has exactly one run, whose path is listed there. *)
Definition aligned (l : list slot) (n : nat) (dirs : list string) : Prop :=
  length dirs = n /\ (forall s k, In s l -> at_index s = Some k -> nth_error dirs k = Some (path (srun s))) /\
  (forall i j a b k, nth_error l i = Some a -> nth_error l j = Some b -> at_index a = Some k -> at_index b = Some k -> i = j) /\
  (forall k, k < n -> exists s, In s l /\ at_index s = Some k).

Lemma fix_slot_spec known s n dirs s' n' dirs' : fix_slot known s n dirs = Ok (s', n', dirs') ->
  outcome known s s' (at_index s') /\ path (srun s') = path (srun s) /\
  ((at_index s' = at_index s /\ n' = n /\ dirs' = dirs) \/ (at_index s = None /\ at_index s' = Some n /\ n' = S n /\ dirs' = dirs ++ [path (srun s)])).
Proof.
  unfold fix_slot. cbv zeta. destruct (String.eqb_spec (tf1 (fin (srun s))) OVERFLOWING) as [O|O].
  - intros E. injection E as <- <- <-. split; [left; auto|]. auto.
  - destruct (grid_point s) as [p|] eqn:GP; [|discriminate].
    set (e := get_nearest_known_initial_RLO _ _ known). destruct (qlt (get_or "period_days" (vper (ini (srun s))) p) (sper e)) eqn:Q.
    + apply qlt_iff in Q. assert (W : forall i', i' <> None -> (forall k, at_index s = Some k -> i' = Some k) -> forall s',
        srun s' = Run (path (srun s)) (fold_left set_value p (ini (srun s))) (forced e (fin (srun s))) -> outcome known s s' i').
      { intros i' H1 H2 s0 R. right. split; [exact O|]. exists p, (get_or "star_1_mass" (vm1 (ini (srun s))) p), (get_or "star_2_mass" (vm2 (ini (srun s))) p),
          (get_or "period_days" (vper (ini (srun s))) p), e. repeat (split; [first [exact GP|apply get_or_said|reflexivity]|]). right.
        rewrite R. cbn [path fin ini]. split; [exact Q|]. split; [reflexivity|]. split; [apply forced_spec|]. split; [apply rewritten_fold|]. auto. }
      destruct (at_index s) as [k|] eqn:A; intros E; injection E as <- <- <-; cbn [srun at_index path].
      * split; [apply W; [discriminate|intros k' K; congruence|reflexivity]|]. auto.
      * split; [apply W; [discriminate|intros k' K; congruence|reflexivity]|]. split; [reflexivity|]. right. auto.
    + apply qlt_false in Q. intros E. injection E as <- <- <-. split; [|auto]. right. split; [exact O|].
      exists p, (get_or "star_1_mass" (vm1 (ini (srun s))) p), (get_or "star_2_mass" (vm2 (ini (srun s))) p),
          (get_or "period_days" (vper (ini (srun s))) p), e. repeat (split; [first [exact GP|apply get_or_said|reflexivity]|]). left. auto.
Qed.
Lemma fix_slots_spec known : forall l n dirs l' n' dirs', fix_slots known l n dirs = Ok (l', n', dirs') ->
  Forall2 (fun s s' => outcome known s s' (at_index s')) l l'.
Proof.
  induction l as [|s l IH]; intros n dirs l' n' dirs' H; cbn in H; [injection H as <- _ _; constructor|].
  destruct (fix_slot known s n dirs) as [[[s1 n1] d1]|] eqn:E; [|discriminate]. cbn in H.
  destruct (fix_slots known l n1 d1) as [[[r2 n2] d2]|] eqn:E2; [|discriminate]. cbn in H. injection H as <- _ _.
  constructor; [eapply fix_slot_spec; exact E|eapply IH; exact E2].
Qed.
Lemma fix_ok known : forall l n dirs, (exists t, fix_slots known l n dirs = Ok t) <-> forall s, In s l -> ~ overflowing (srun s) -> grid_point s <> None.
Proof.
  assert (ONE : forall s n dirs, (exists t, fix_slot known s n dirs = Ok t) <-> (~ overflowing (srun s) -> grid_point s <> None)).
  { intros s n dirs. unfold fix_slot, overflowing. cbv zeta. destruct (String.eqb_spec (tf1 (fin (srun s))) OVERFLOWING) as [O|O].
    - split; [intros _ N; exfalso; apply N; exact O|eauto].
    - destruct (grid_point s) as [p|]; [|split; [intros [t T]; discriminate|intros H; exfalso; apply H; [exact O|reflexivity]]].
      split; [discriminate|]. intros _. destruct (qlt _ _); [|eauto]. destruct (at_index s); eauto. }
  induction l as [|s l IH]; intros n dirs; cbn.
  - split; [intros _ s []|eauto].
  - specialize (ONE s n dirs). destruct (fix_slot known s n dirs) as [[[s1 n1] d1]|e] eqn:E; cbn.
    + specialize (IH n1 d1). destruct (fix_slots known l n1 d1) as [[[r2 n2] d2]|e2]; cbn.
      * split; [|eauto]. intros _ s' [<-|I]; [apply ONE; eauto|apply IH; eauto].
      * split; [intros [t T]; discriminate|]. intros H. exfalso. destruct (proj2 IH) as [t T]; [intros s' I; apply H; right; exact I|discriminate].
    + split; [intros [t T]; discriminate|]. intros H. exfalso. destruct (proj2 ONE) as [t T]; [apply H; left; reflexivity|discriminate].
Qed.
Lemma fix_align known : forall l pre n dirs l' n' dirs', fix_slots known l n dirs = Ok (l', n', dirs') -> aligned (pre ++ l) n dirs -> aligned (pre ++ l') n' dirs'.
Proof.
  induction l as [|s l IH]; intros pre n dirs l' n' dirs' H AL; cbn in H; [injection H as <- <- <-; exact AL|].
  destruct (fix_slot known s n dirs) as [[[s1 n1] d1]|] eqn:E; [|discriminate]. cbn in H.
  destruct (fix_slots known l n1 d1) as [[[r2 n2] d2]|] eqn:E2; [|discriminate]. cbn in H. injection H as <- <- <-.
  assert (ALN : aligned (pre ++ s1 :: l) n1 d1).
  { destruct (fix_slot_spec _ _ _ _ _ _ _ E) as (_ & P & CH). destruct AL as (L & A & B & C).
    assert (NT : forall i a, nth_error (pre ++ s1 :: l) i = Some a -> (i = length pre /\ a = s1) \/ (i <> length pre /\ nth_error (pre ++ s :: l) i = Some a)).
    { intros i a N. destruct (lt_eq_lt_dec i (length pre)) as [[LT| ->]|LT].
      - right. split; [lia|]. rewrite nth_error_app1 in * by exact LT. exact N.
      - left. rewrite nth_error_app2, Nat.sub_diag in N by lia. injection N as <-. auto.
      - right. split; [lia|]. rewrite nth_error_app2 in * by lia. destruct (i - length pre) as [|q] eqn:Q; [lia|]. exact N. }
    assert (NS : nth_error (pre ++ s :: l) (length pre) = Some s) by (rewrite nth_error_app2, Nat.sub_diag by lia; reflexivity).
    assert (INs : In s (pre ++ s :: l)) by (apply in_or_app; right; left; reflexivity).
    assert (IN1 : In s1 (pre ++ s1 :: l)) by (apply in_or_app; right; left; reflexivity).
    destruct CH as [(AE & -> & ->)|(A0 & A1 & -> & ->)].
    - split; [exact L|]. split; [|split].
      + intros a k I K. apply in_app_or in I as [I|[<-|I]].
        * apply A; [apply in_or_app; left; exact I|exact K].
        * rewrite P. apply A; [exact INs|congruence].
        * apply A; [apply in_or_app; right; right; exact I|exact K].
      + intros i j a b k NA NB KA KB. destruct (NT i a NA) as [[-> ->]|[NI NA']]; destruct (NT j b NB) as [[-> ->]|[NJ NB']].
        * reflexivity.
        * apply (B _ _ s b k); auto. congruence.
        * apply (B _ _ a s k); auto. congruence.
        * apply (B _ _ a b k); auto.
      + intros k K. destruct (C k K) as (a & I & Q). apply in_app_or in I as [I|[<-|I]].
        * exists a. split; [apply in_or_app; left; exact I|exact Q].
        * exists s1. split; [exact IN1|congruence].
        * exists a. split; [apply in_or_app; right; right; exact I|exact Q].
    - assert (LTK : forall a k, In a (pre ++ s :: l) -> at_index a = Some k -> k < n).
      { intros a k I K. rewrite <- L. apply nth_error_Some. rewrite (A a k I K). discriminate. }
      split; [rewrite app_length; cbn; lia|]. split; [|split].
      + intros a k I K. assert (OLD : In a (pre ++ s :: l) -> nth_error (dirs ++ [path (srun s)]) k = Some (path (srun a))).
        { intros I'. rewrite nth_error_app1 by (rewrite L; eapply LTK; eauto). apply A; assumption. }
        apply in_app_or in I as [I|[<-|I]].
        * apply OLD, in_or_app. left. exact I.
        * assert (k = n) by congruence. subst k. rewrite nth_error_app2 by lia. rewrite L, Nat.sub_diag, P. reflexivity.
        * apply OLD, in_or_app. right. right. exact I.
      + intros i j a b k NA NB KA KB. destruct (NT i a NA) as [[-> ->]|[NI NA']]; destruct (NT j b NB) as [[-> ->]|[NJ NB']].
        * reflexivity.
        * exfalso. assert (k < n) by (apply (LTK b k); [eapply nth_error_In; eauto|exact KB]). assert (k = n) by congruence. lia.
        * exfalso. assert (k < n) by (apply (LTK a k); [eapply nth_error_In; eauto|exact KA]). assert (k = n) by congruence. lia.
        * apply (B _ _ a b k); auto.
      + intros k K. destruct (Nat.eq_dec k n) as [-> |NK]; [exists s1; auto|]. destruct (C k ltac:(lia)) as (a & I & Q). apply in_app_or in I as [I|[<-|I]].
        * exists a. split; [apply in_or_app; left; exact I|exact Q].
        * congruence.
        * exists a. split; [apply in_or_app; right; right; exact I|exact Q]. }
  change (pre ++ s1 :: l) with (pre ++ [s1] ++ l) in ALN. change (pre ++ s1 :: r2) with (pre ++ [s1] ++ r2). rewrite app_assoc in ALN |- *.
  eapply IH; [exact E2|exact ALN].
Qed.
Lemma set_nth_get A : forall (l : list A) i x j, nth_error (set_nth l i x) j = if Nat.eqb i j then (if Nat.ltb j (length l) then Some x else None) else nth_error l j.
Proof.
  induction l as [|y l IH]; intros i x j; cbn [set_nth].
  - destruct j; cbn; destruct (Nat.eqb i _); reflexivity.
  - destruct i as [|i], j as [|j]; cbn; try reflexivity. rewrite IH. destruct (Nat.eqb i j); reflexivity.
Qed.
Lemma store_get l n dirs k : aligned l n dirs -> k < n ->
  exists s, In s l /\ at_index s = Some k /\ nth_error (store l n) k = Some (Some (ini (srun s), fin (srun s))).
Proof.
  intros (L & A & B & C) K. destruct (C k K) as (s & I & Q). exists s. split; [exact I|]. split; [exact Q|].
  unfold store. apply In_nth_error in I as [i I].
  assert (LTK : forall a k, In a l -> at_index a = Some k -> k < n).
  { intros a k' IA KA. rewrite <- L. apply nth_error_Some. rewrite (A a k' IA KA). discriminate. }
  assert (G : forall l1 l2 rows, l = l1 ++ l2 -> length rows = n -> (i < length l1 -> nth_error rows k = Some (Some (ini (srun s), fin (srun s)))) ->
    nth_error (fold_left (fun rows s => match at_index s with Some i => if Nat.leb n i then rows else set_nth rows i (Some (ini (srun s), fin (srun s))) | None => rows end) l2 rows) k
    = Some (Some (ini (srun s), fin (srun s)))).
  { intros l1 l2. revert l1. induction l2 as [|a l2 IH]; intros l1 rows E LR H; cbn [fold_left].
    - rewrite app_nil_r in E. subst l1. apply H. apply nth_error_Some. congruence.
    - apply (IH (l1 ++ [a])); [rewrite <- app_assoc; exact E| |].
      + destruct (at_index a) as [ka|]; [|exact LR]. destruct (Nat.leb n ka); [exact LR|]. clear -LR. rewrite <- LR. clear. revert ka.
        induction rows as [|y rows IH]; intros [|ka]; cbn; try reflexivity. f_equal. apply IH.
      + intros HI. rewrite app_length in HI. cbn in HI. assert (NA : nth_error l (length l1) = Some a) by (rewrite E, nth_error_app2, Nat.sub_diag by lia; reflexivity).
        destruct (Nat.eq_dec i (length l1)) as [EI|NI].
        * subst i. assert (a = s) by congruence. subst a. rewrite Q. rewrite (proj2 (Nat.leb_gt n k) K). rewrite set_nth_get, Nat.eqb_refl, LR.
          rewrite (proj2 (Nat.ltb_lt k n) K). reflexivity.
        * destruct (at_index a) as [ka|] eqn:KA; [|apply H; lia]. destruct (Nat.leb n ka); [apply H; lia|]. rewrite set_nth_get.
          destruct (Nat.eqb_spec ka k) as [-> |NK]; [|apply H; lia]. exfalso. apply NI. apply (B i (length l1) s a k); auto. }
  apply (G [] l (repeat None n)); [reflexivity|apply repeat_length|cbn; lia].
Qed.

(** The fix, run by run, and the tables that are stored. *)
Theorem C67_create : forall l n dirs known, known = get_detected_initial_RLO (map srun l) ->
  ((exists t, initial_RLO_fix l n dirs = Ok t) <-> forall s, In s l -> ~ overflowing (srun s) -> grid_point s <> None) /\
  forall l' n' dirs', initial_RLO_fix l n dirs = Ok (l', n', dirs') ->
    Forall2 (fun s s' => outcome known s s' (at_index s')) l l' /\
    (aligned l n dirs -> aligned l' n' dirs' /\
       forall k, k < n' -> exists s, In s l' /\ nth_error dirs' k = Some (path (srun s)) /\ nth_error (store l' n') k = Some (Some (ini (srun s), fin (srun s)))).
Proof.
  intros l n dirs known ->. unfold initial_RLO_fix. split; [apply fix_ok|]. intros l' n' dirs' E. split; [eapply fix_slots_spec; exact E|].
  intros AL. assert (AL' : aligned l' n' dirs') by (apply (fix_align _ l [] n dirs l' n' dirs' E AL)). split; [exact AL'|].
  intros k K. destruct (store_get l' n' dirs' k AL' K) as (s & I & Q & R). exists s. split; [exact I|]. split; [|exact R]. apply AL'; assumption.
Qed.
Print Assumptions C67_join.
Print Assumptions C67_join_kept.
Print Assumptions C67_class.
Print Assumptions C67_join_twice.
Print Assumptions C67_create.

(** ** Cases *)
Definition over (k : nat) (m1 m2 p : Q) : run :=
  Run "o" (Values m1 m2 p [("Z", (1 # 100)%Q)]) (Flags "Terminate because of overflowing initial model" "initial_RLOF" "H-rich_Core_H_burning" (if Nat.eqb k 7 then "seven" else "None") "initial_MT").
Definition crowd : list run := map (fun k => over k (inject_Z (Z.of_nat (S k))) 1 2) (seq 0 20).
Definition plain : run := Run "p" (Values 8 1 (15 # 10) [("Z", (1 # 100)%Q)]) (Flags "max_age" "case_A1" "a" "b" "stable_MT").
Definition ignored : run := Run "q" (Values 9 1 3 [("Z", (1 # 100)%Q)]) (Flags "ignored_no_RLO" "no_RLOF" "c" "d" "no_MT").
Example C67_create_case :
  let l := map (fun r => Slot r None (Some [])) crowd ++ [Slot plain (Some 0) (Some [("Z", (2 # 100)%Q); ("unknown", 5%Q)]); Slot ignored None (Some [("period_days", 1%Q)])] in
  aligned (skipn 20 l) 1 ["p"] /\
  match initial_RLO_fix l 1 ["p"] with
  | Ok (l', n, dirs) => n = 2 /\ dirs = ["p"; "q"] /\ store l' n =
      [Some (Values 8 1 (15 # 10) [("Z", (2 # 100)%Q)], Flags "forced_initial_RLO" "forced_initial_RLO" "H-rich_Core_H_burning" "seven" "initial_MT");
       Some (Values 9 1 1 [("Z", (1 # 100)%Q)], Flags "forced_initial_RLO" "forced_initial_RLO" "H-rich_Core_H_burning" "None" "initial_MT")]
  | Raise _ => False
  end.
Proof.
  split; [|vm_compute; auto]. split; [reflexivity|]. split; [|split].
  - intros s k [<-|[<-|[]]] K; [injection K as <-; reflexivity|discriminate].
  - intros [|[|i]] [|[|j]] a b k A B KA KB; try reflexivity; cbn in A, B; try (destruct i; discriminate); try (destruct j; discriminate);
      injection A as <-; injection B as <-; discriminate.
  - intros [|k] K; [|lia]. eexists. split; [left; reflexivity|reflexivity].
Qed.
(** With one system less nothing is forced. *)
Example C67_few_case : let l := map (fun r => Slot r None (Some [])) (skipn 1 crowd) ++ [Slot plain (Some 0) (Some [])] in
  initial_RLO_fix l 1 ["p"] = Ok (l, 1, ["p"]).
Proof. vm_compute. reflexivity. Qed.
(** A run without a grid point file ends the creation, even far from the boundary. *)
Theorem C67_no_grid_point_refuted : exists l n dirs, (forall s, In s l -> overflowing (srun s) \/ get_detected_initial_RLO (map srun l) = []) /\
  initial_RLO_fix l n dirs = Raise TypeError.
Proof. exists [Slot plain (Some 0) None], 1, ["p"]. split; [right; reflexivity|reflexivity]. Qed.
Example C67_join_case : fin (join_fix (merge_detected [crowd; [plain]]) plain) = Flags "forced_initial_RLO" "forced_initial_RLO" "H-rich_Core_H_burning" "seven" "initial_MT" /\
  join_fix (merge_detected [crowd; [plain]]) ignored = ignored /\ in_range 8 1 (merge_detected [crowd; [plain]]).
Proof. split; [vm_compute; reflexivity|]. split; [vm_compute; reflexivity|]. apply Forall_forall.
  intros s I. apply qlt_iff. revert s I. apply (proj1 (forallb_forall (fun s => qlt (dist2 8 1 s) (inject_Z (10 ^ 99))) _)). vm_compute. reflexivity.
Qed.
Print Assumptions C67_no_grid_point_refuted.
