(** C188: the processes of a dynamic grid *)
From Coq Require Import String List Permutation Lia Arith.
From Verif Require Import PyBase DynGridModel.
Import ListNotations.

Section P.
Context {point row : Type}.
Variable propose_first : list row -> nat -> result (list point).
Variable propose : list row -> result point.
Variable has_append : bool.
Variables (size niter : nat) (start : list row).
Notation STEP := (step propose_first propose has_append size niter start).
Notation STEPS := (steps propose_first propose has_append size niter start).
Notation REACH := (reachable propose_first propose has_append size niter start).

(** The points a child has in its hands *)
Definition held (c : child point row) : list point := match c with Idle => [] | Given p | Running p | Reported p _ => [p] end.
Definition ok_root (r : phase point) : Prop := match r with Failed _ => False | _ => True end.

Lemma update_length (l : list (child point row)) : forall n c, length (update l n c) = length l.
Proof. induction l as [|x l IH]; intros [|n] c; cbn; auto. Qed.
Lemma update_nth (l : list (child point row)) : forall n c m, nth_error (update l n c) m = if Nat.eqb m n then (if Nat.ltb n (length l) then Some c else None) else nth_error l m.
Proof.
  induction l as [|x l IH]; intros [|n] c [|m]; cbn; try reflexivity.
  - destruct (Nat.eqb m n); reflexivity.
  - rewrite IH. destruct (Nat.eqb m n); [|reflexivity]. change (Nat.ltb (S n) (S (length l))) with (Nat.ltb n (length l)). reflexivity.
Qed.
Lemma update_in (l : list (child point row)) n c x : In x (update l n c) -> x = c \/ In x l.
Proof.
  revert n. induction l as [|y l IH]; intros [|n]; cbn; try tauto; [intros [->|H]; tauto|]. intros [->|H]; [tauto|]. apply IH in H. tauto.
Qed.
Lemma update_held (l : list (child point row)) : forall n x c, nth_error l n = Some x -> Permutation (flat_map held (update l n c) ++ held x) (flat_map held l ++ held c).
Proof.
  induction l as [|y l IH]; intros [|n] x c H; cbn in *; try discriminate.
  - assert (y = x) as -> by congruence. rewrite Permutation_app_comm. rewrite <- (app_assoc (held x)). apply Permutation_app_head, Permutation_app_comm.
  - rewrite <- !app_assoc. now apply Permutation_app_head, IH.
Qed.

(** ** The invariant *)

Definition rows_of (s : state point row) : list row := start ++ map snd (recorded s).
(** Every point which was sent is recorded or in the hands of one child *)
Definition conserved (s : state point row) : Prop := Permutation (sent s) (map fst (recorded s) ++ flat_map held (children s)).
Definition busy (s : state point row) : Prop := forall c, In c (children s) -> c <> Idle.
Definition phase_ok (s : state point row) : Prop :=
  match root s with
  | Begin => sent s = [] /\ recorded s = [] /\ (forall c, In c (children s) -> c = Idle) /\ conserved s
  | Sending _ => recorded s = [] /\ length (sent s) <= size - 1 /\ (forall i c, nth_error (children s) i = Some c -> (c = Idle <-> length (sent s) <= i)) /\ conserved s
  | Looping n => length (sent s) = size - 1 + n /\ length (recorded s) = n /\ n <= niter /\ busy s /\ conserved s
  | Done => length (sent s) = size - 1 + niter /\ length (recorded s) = niter /\ busy s /\ conserved s
  | Failed _ => length (recorded s) <= niter
  end.
Definition file_ok (s : state point row) : Prop := (recorded s = [] -> csv s = None) /\ (recorded s <> [] -> csv s = Some (rows_of s)).
Definition inv (s : state point row) : Prop := length (children s) = size - 1 /\ phase_ok s /\ file_ok s /\ (has_append = false -> recorded s = []).

Lemma flat_idle (l : list (child point row)) : (forall c, In c l -> c = Idle) -> flat_map held l = [].
Proof. induction l as [|x l IH]; intros H; [reflexivity|]. cbn. rewrite (H x) by now left. cbn. apply IH. intros c I. apply H. now right. Qed.
Lemma inv_init : inv (init size).
Proof.
  assert (I : forall c : child point row, In c (repeat Idle (size - 1)) -> c = Idle) by (intros c I; now apply repeat_spec in I).
  split; [apply repeat_length|]. split; [|split; [split; [reflexivity|now intros []]|reflexivity]]. cbn. repeat split; auto. unfold conserved. cbn. now rewrite flat_idle.
Qed.
(** A child that goes on with the point it has *)
Lemma keep_conserved s c x y : nth_error (children s) c = Some x -> held x = held y -> forall r, conserved s ->
  conserved (State r (update (children s) c y) (sent s) (recorded s) (csv s)).
Proof.
  intros N H r C. unfold conserved in *. cbn. rewrite C. apply Permutation_app_head. apply Permutation_app_inv_r with (held x).
  rewrite (update_held _ _ _ y N). now rewrite H.
Qed.
Lemma busy_update s c y r sn rc cs : y <> Idle -> busy s -> busy (State r (update (children s) c y) sn rc cs).
Proof. intros N B z I. cbn in I. apply update_in in I as [->|I]; [exact N|now apply B]. Qed.
Lemma file_recorded s s' : recorded s' = recorded s -> csv s' = csv s -> file_ok s -> file_ok s'.
Proof. intros R C [A B]. split; unfold rows_of in *; rewrite R, C; assumption. Qed.
Lemma snoc_nonempty {A} (l : list A) x : l ++ [x] <> [].
Proof. now destruct l. Qed.
Lemma child_going s c x y : inv s -> nth_error (children s) c = Some x -> held x = held y -> x <> Idle -> y <> Idle ->
  inv (State (root s) (update (children s) c y) (sent s) (recorded s) (csv s)).
Proof.
  intros (L & P & F & A) N H X Y. split; [cbn; now rewrite update_length|]. split; [|split; [now apply (file_recorded s)|exact A]].
  unfold phase_ok in *. cbn [root sent recorded]. destruct (root s).
  - destruct P as (_ & _ & P & _). exfalso. apply X, P. now apply nth_error_In in N.
  - destruct P as (R & LE & P & C). split; [exact R|]. split; [exact LE|]. split; [|now apply (keep_conserved s c x y)]. cbn. intros i z Z. rewrite update_nth in Z.
    destruct (Nat.eqb_spec i c) as [->|]; [|now apply P]. destruct (Nat.ltb c _); [|discriminate]. assert (z = y) as -> by congruence. specialize (P c x N). intuition congruence.
  - destruct P as (P1 & P2 & P3 & B & C). repeat split; try assumption; [now apply busy_update|now apply (keep_conserved s c x y)].
  - destruct P as (P1 & P2 & B & C). repeat split; try assumption; [now apply busy_update|now apply (keep_conserved s c x y)].
  - exact P.
Qed.
Lemma inv_step s s' : inv s -> STEP s s' -> inv s'.
Proof.
  intros I ST. assert (I' := I). destruct I' as (L & P & F & A). destruct ST as [s ps R E|s e R E|s ps p R LT N|s ps R LT N|s ps R EQ|s c p N|s c p r N|s n c p r p' R LT N HA E|s n c p r e R LT N HA E|s n c p r R LT N D|s n R LE].
  - split; [exact L|]. split; [|split; [now apply (file_recorded s)|exact A]]. unfold phase_ok in *. rewrite R in P. destruct P as (S0 & R0 & P & C). cbn. rewrite S0 in *. repeat split; auto with arith.
    + intros _. apply P. now apply nth_error_In in H.
    + unfold conserved in *. cbn. now rewrite S0 in C.
  - split; [exact L|]. split; [|split; [now apply (file_recorded s)|exact A]]. unfold phase_ok in *. rewrite R in P. destruct P as (_ & R0 & _). cbn. rewrite R0. cbn. lia.
  - split; [cbn; now rewrite update_length|]. split; [|split; [now apply (file_recorded s)|exact A]]. unfold phase_ok in *. rewrite R in P. destruct P as (R0 & LE & P & C). cbn [root sent recorded children].
    destruct (nth_error (children s) (length (sent s))) as [x|] eqn:NX; [|apply nth_error_None in NX; lia].
    assert (x = Idle) as -> by (apply (P _ _ NX); lia).
    split; [exact R0|]. rewrite app_length. cbn [length]. split; [lia|]. split.
    + intros i z Z. rewrite update_nth in Z. destruct (Nat.eqb_spec i (length (sent s))) as [->|NE].
      * destruct (Nat.ltb _ _); [|discriminate]. assert (z = Given p) as -> by congruence. split; [discriminate|lia].
      * rewrite (P i z Z). lia.
    + unfold conserved in *. cbn. rewrite R0 in *. cbn in *. assert (U := update_held _ _ _ (Given p) NX). cbn [held] in U. rewrite app_nil_r in U. rewrite U. now apply Permutation_app_tail.
  - split; [exact L|]. split; [|split; [now apply (file_recorded s)|exact A]]. unfold phase_ok in *. rewrite R in P. destruct P as (R0 & _). cbn. rewrite R0. cbn. lia.
  - split; [exact L|]. split; [|split; [now apply (file_recorded s)|exact A]]. unfold phase_ok in *. rewrite R in P. destruct P as (R0 & LE & P & C). cbn. rewrite R0. cbn. repeat split; try lia; [|unfold conserved in *; cbn; rewrite R0 in C; exact C].
    intros c IC ->. cbn in IC. apply In_nth_error in IC as (i & IC). assert (K := proj1 (P _ _ IC) eq_refl). assert (i < length (children s)) by (apply nth_error_Some; congruence). lia.
  - now apply (child_going s c (Given p) (Running p)).
  - now apply (child_going s c (Running p) (Reported p r)).
  - split; [cbn; now rewrite update_length|]. unfold phase_ok in *. rewrite R in P. destruct P as (S0 & R0 & LE & B & C). cbn [root sent recorded children csv]. split; [|split].
    + rewrite !app_length. cbn. repeat split; try lia; [now apply busy_update|]. unfold conserved in *. cbn. rewrite map_app. cbn. rewrite C.
      assert (U := update_held _ _ _ (Given p') N). cbn [held] in U. rewrite <- !app_assoc. apply Permutation_app_head. cbn. rewrite <- U. rewrite Permutation_app_comm. reflexivity.
    + split; [intros K; exfalso; revert K; apply snoc_nonempty|]. intros _. cbn. unfold rows_of, grid_of. cbn. now rewrite map_app, app_assoc.
    + congruence.
  - split; [cbn; now rewrite update_length|]. unfold phase_ok in *. rewrite R in P. destruct P as (S0 & R0 & LE & B & C). cbn [root sent recorded children csv]. split; [|split].
    + rewrite app_length. cbn. lia.
    + split; [intros K; exfalso; revert K; apply snoc_nonempty|]. intros _. cbn. unfold rows_of, grid_of. cbn. now rewrite map_app, app_assoc.
    + congruence.
  - split; [cbn; now rewrite update_length|]. unfold phase_ok in *. rewrite R in P. destruct P as (S0 & R0 & LE & B & C). cbn [root sent recorded children csv]. split; [lia|]. split; [now apply (file_recorded s)|exact A].
  - split; [exact L|]. split; [|split; [now apply (file_recorded s)|exact A]]. unfold phase_ok in *. rewrite R in P. destruct P as (S0 & R0 & LE' & B & C). assert (n = niter) as -> by lia. cbn. now repeat split.
Qed.
Lemma inv_reach s : REACH s -> inv s.
Proof. intros H. unfold reachable in H. remember (init size : state point row) as s0 eqn:E. induction H as [s|s s' s'' _ IH ST]; [subst; apply inv_init|]. apply (inv_step s'); [now apply IH|exact ST]. Qed.

(** ** C188 *)

(** While the root has not failed, every point which was sent is either recorded or with exactly one child; the file holds the grid with all recorded results;
    no more than Niter results are ever recorded *)
Theorem C188_conserved : forall s, REACH s -> length (recorded s) <= niter /\
  (ok_root (root s) -> Permutation (sent s) (map fst (recorded s) ++ flat_map held (children s))) /\
  (recorded s = [] -> csv s = None) /\ (recorded s <> [] -> csv s = Some (start ++ map snd (recorded s))).
Proof.
  intros s H. destruct (inv_reach s H) as (L & P & [F1 F2] & _). unfold phase_ok in P. repeat split; try assumption.
  - destruct (root s); [destruct P as (_ & -> & _); cbn; lia|destruct P as (-> & _); cbn; lia|destruct P as (_ & -> & LE & _); exact LE|destruct P as (_ & -> & _); lia|exact P].
  - intros O. destruct (root s); try (now destruct O); now decompose [and] P.
Qed.
(** When the root has finished, Niter results are recorded, but size - 1 more points were sent, and one of them is with each child *)
Theorem C188_lost : forall s, REACH s -> root s = Done ->
  length (recorded s) = niter /\ length (sent s) = niter + (size - 1) /\ length (children s) = size - 1 /\ (forall c, In c (children s) -> exists p, held c = [p]).
Proof.
  intros s H D. destruct (inv_reach s H) as (L & P & _). unfold phase_ok in P. rewrite D in P. destruct P as (S0 & R0 & B & C). repeat split; try assumption; [lia|].
  intros c I. destruct c as [|p|p|p r]; [now destruct (B _ I)|exists p; reflexivity..].
Qed.
(** Nothing is recorded any more then *)
Lemma ended s s' : STEPS s s' -> root s = Done -> root s' = Done /\ recorded s' = recorded s /\ csv s' = csv s.
Proof.
  induction 1 as [s|s s' s'' _ IH ST]; intros D; [auto|]. destruct (IH D) as (D' & R & C). clear IH. destruct ST; cbn [root recorded csv]; try congruence; now repeat split.
Qed.
Theorem C188_never : forall s s', REACH s -> root s = Done -> STEPS s s' -> recorded s' = recorded s /\ csv s' = csv s.
Proof. intros s s' _ D S. now destruct (ended s s' S D) as (_ & R & C). Qed.

(** The root has finished, but the children have not: each one goes on to run the point it was given, and then waits for ever for the root to take the result.
    From every state in which the root has finished, the processes get to one in which nothing can happen any more, every child has run its point, and no
    result of these is recorded *)
Definition reported (c : child point row) : Prop := exists p r, c = Reported p r.
Definition stuck (s : state point row) : Prop := forall s', ~ STEP s s'.
Definition rest (c : child point row) : nat := match c with Idle => 0 | Given _ => 2 | Running _ => 1 | Reported _ _ => 0 end.
Lemma steps_trans s s' s'' : STEPS s s' -> STEPS s' s'' -> STEPS s s''.
Proof. intros A B. induction B as [|s1 s2 s3 _ IH ST]; [exact A|]. eapply steps_snoc; [now apply IH|exact ST]. Qed.
Lemma one_step s s' : STEP s s' -> STEPS s s'.
Proof. intros H. eapply steps_snoc; [apply steps_nil|exact H]. Qed.
Lemma steps_cons s s' s'' : STEP s s' -> STEPS s' s'' -> STEPS s s''.
Proof. intros A. apply steps_trans. now apply one_step. Qed.
Lemma not_reported (l : list (child point row)) : (forall c, In c l -> c <> Idle) -> (forall c, In c l -> reported c) \/ exists i p, nth_error l i = Some (Given p) \/ nth_error l i = Some (Running p).
Proof.
  induction l as [|x l IH]; intros B; [left; now intros c []|]. destruct IH as [IH|(i & p & IH)].
  - intros c I. apply B. now right.
  - destruct x as [|p|p|p r].
    + now destruct (B Idle (or_introl eq_refl)).
    + right. exists 0, p. now left.
    + right. exists 0, p. now right.
    + left. intros c [<-|I]; [now exists p, r|now apply IH].
  - right. now exists (S i), p.
Qed.
Lemma rest_update (l : list (child point row)) : forall i x y, nth_error l i = Some x -> rest y < rest x -> list_sum (map rest (update l i y)) < list_sum (map rest l).
Proof. induction l as [|z l IH]; intros [|i] x y N LT; cbn in *; try discriminate; [assert (z = x) as -> by congruence; lia|]. specialize (IH _ _ _ N LT). unfold list_sum in *. cbn in *. lia. Qed.
Lemma all_report (n : nat) : forall s, list_sum (map rest (children s)) <= n -> busy s -> exists s', STEPS s s' /\ root s' = root s /\ (forall c, In c (children s') -> reported c).
Proof.
  induction n as [|n IH]; intros s LE B.
  - destruct (not_reported _ B) as [A|(i & p & [N|N])]; [exists s; repeat split; [apply steps_nil|exact A]|exfalso..].
    + assert (K := rest_update _ _ _ (Running p) N ltac:(cbn; lia)). lia.
    + assert (K := rest_update _ _ _ (Reported p None) N ltac:(cbn; lia)). lia.
  - destruct (not_reported _ B) as [A|(i & p & [N|N])]; [exists s; repeat split; [apply steps_nil|exact A]| |].
    + set (s1 := State (root s) (update (children s) i (Running p)) (sent s) (recorded s) (csv s)).
      destruct (IH s1) as (s' & ST & R & A); [assert (K := rest_update _ _ _ (Running p) N ltac:(cbn; lia)); unfold s1; cbn [children]; lia|now apply (busy_update s)|].
      exists s'. split; [|now split]. apply steps_trans with s1; [|exact ST]. apply one_step. now apply step_receive.
    + set (s1 := State (root s) (update (children s) i (Reported p None)) (sent s) (recorded s) (csv s)).
      destruct (IH s1) as (s' & ST & R & A); [assert (K := rest_update _ _ _ (Reported p None) N ltac:(cbn; lia)); unfold s1; cbn [children]; lia|now apply (busy_update s)|].
      exists s'. split; [|now split]. apply steps_trans with s1; [|exact ST]. apply one_step. now apply step_report.
Qed.
Theorem C188_hang : forall s, REACH s -> root s = Done ->
  exists s', STEPS s s' /\ stuck s' /\ length (children s') = size - 1 /\ (forall c, In c (children s') -> reported c) /\ recorded s' = recorded s /\ length (recorded s) = niter.
Proof.
  intros s H D. destruct (C188_lost s H D) as (N & _ & _ & HB). assert (B : busy s) by (intros c I ->; now destruct (HB _ I)).
  destruct (all_report _ s (le_n _) B) as (s' & ST & R & A). exists s'. rewrite D in R. destruct (ended s s' ST D) as (_ & RC & _).
  assert (I : inv s') by (apply inv_reach; exact (steps_trans _ _ _ H ST)). destruct I as (L & _).
  repeat split; try assumption.
  intros s'' ST'. destruct ST'; try congruence; apply nth_error_In in H0; destruct (A _ H0) as (? & ? & ?); discriminate.
Qed.

(** With one process there are no children: the root waits for ever for a result *)
Lemma alone s : size <= 1 -> REACH s -> children s = [].
Proof. intros LE H. destruct (inv_reach s H) as (L & _). destruct (children s); [reflexivity|cbn in L; lia]. Qed.
Theorem C188_alone : size <= 1 -> 0 < niter -> forall s, REACH s -> root s <> Done /\ recorded s = [] /\ (forall n, root s = Looping n -> stuck s).
Proof.
  intros LE LT s H. assert (C := alone s LE H). assert (Z : forall i, nth_error (children s) i = None) by (intros i; rewrite C; now destruct i).
  assert (N : recorded s = [] /\ match root s with Done => False | Looping n => n = 0 | _ => True end).
  { unfold reachable in H. remember (init size : state point row) as s0 eqn:E. clear C Z. induction H as [s|s s' s'' H IH ST]; [subst; cbn; auto|].
    specialize (IH E). subst s. assert (C := alone s' LE H). destruct IH as [R IH].
    assert (Z : forall i, nth_error (children s') i = None) by (intros i; rewrite C; now destruct i).
    destruct ST; cbn [root recorded]; rewrite ?Z in *; try discriminate; try (split; [assumption|auto; fail]).
    exfalso. rewrite H0 in IH. lia. }
  destruct N as [R N]. split; [intros D; now rewrite D in N|]. split; [exact R|].
  intros n L s' ST. rewrite L in N. subst n. destruct ST; rewrite ?Z in *; try discriminate; try congruence. assert (n = 0) by congruence. lia.
Qed.

(** With the versions of pandas which the project asks for, no result is ever recorded and the root fails at the first result *)
Theorem C188_pandas : has_append = false -> 0 < niter -> forall s, REACH s ->
  recorded s = [] /\ csv s = None /\ root s <> Done /\
  (forall c p r s', root s = Looping 0 -> nth_error (children s) c = Some (Reported p r) -> STEP s s' -> root s' = Looping 0 \/ root s' = Failed ValueError).
Proof.
  intros HA LT s H. destruct (inv_reach s H) as (L & P & [F1 _] & A). assert (R := A HA). split; [exact R|]. split; [now apply F1|].
  split; [intros D; unfold phase_ok in P; rewrite D in P; destruct P as (_ & P & _); rewrite R in P; cbn in P; lia|].
  intros c p r s' RL N ST. destruct ST; cbn [root]; try congruence; auto. assert (n = 0) by congruence. lia.
Qed.
(** A run that failed, with any version, ends the grid *)
Theorem C188_reject : forall s n c p, root s = Looping n -> n < niter -> nth_error (children s) c = Some (Reported p None) ->
  exists s', STEP s s' /\ root s' = Failed ValueError /\ recorded s' = recorded s /\ csv s' = csv s.
Proof. intros s n c p R LT N. eexists. split; [eapply step_reject; [exact R|exact LT|exact N|now left]|]. now repeat split. Qed.
Lemma failed_ends s s' : STEPS s s' -> forall e, root s = Failed e -> root s' = Failed e /\ recorded s' = recorded s /\ csv s' = csv s.
Proof.
  induction 1 as [s|s s' s'' _ IH ST]; intros e D; [auto|]. destruct (IH e D) as (D' & R & C). clear IH. destruct ST; cbn [root recorded csv]; try congruence; now repeat split.
Qed.
Theorem C188_failed : forall s s' e, root s = Failed e -> STEPS s s' -> root s' = Failed e /\ recorded s' = recorded s /\ csv s' = csv s.
Proof. intros s s' e D S. exact (failed_ends s s' S e D). Qed.
End P.

(** ** Concrete grids: three processes, two more points, and points which are numbers *)
Definition first_points (g : list nat) (n : nat) : result (list nat) := Ok (seq 10 n).
Definition next_point (g : list nat) : result nat := Ok (100 + length g).
(** Both children run; the second one is faster *)
Example grid_of_two : exists s, reachable first_points next_point true 3 2 [7] s /\ root s = Done /\ recorded s = [(11, 21); (101 + 1, 22)] /\
  csv s = Some [7; 21; 22] /\ sent s = [10; 11; 102; 103] /\ children s = [Running 10; Given 103].
Proof.
  eexists. split.
  - unfold reachable.
    eapply steps_cons; [eapply (step_propose _ _ _ _ _ _ _ [10; 11; 12]); reflexivity|cbn].
    eapply steps_cons; [eapply (step_send _ _ _ _ _ _ _ [10; 11; 12] 10); [reflexivity|cbn; auto|reflexivity]|cbn].
    eapply steps_cons; [eapply (step_send _ _ _ _ _ _ _ [10; 11; 12] 11); [reflexivity|cbn; auto|reflexivity]|cbn].
    eapply steps_cons; [eapply (step_sent _ _ _ _ _ _ _ [10; 11; 12]); reflexivity|cbn].
    eapply steps_cons; [eapply (step_receive _ _ _ _ _ _ _ 0 10); reflexivity|cbn].
    eapply steps_cons; [eapply (step_receive _ _ _ _ _ _ _ 1 11); reflexivity|cbn].
    eapply steps_cons; [eapply (step_report _ _ _ _ _ _ _ 1 11 (Some 21)); reflexivity|cbn].
    eapply steps_cons; [eapply (step_record _ _ _ _ _ _ _ 0 1 11 21); [reflexivity|auto|reflexivity|reflexivity|reflexivity]|cbn].
    eapply steps_cons; [eapply (step_receive _ _ _ _ _ _ _ 1 102); reflexivity|cbn].
    eapply steps_cons; [eapply (step_report _ _ _ _ _ _ _ 1 102 (Some 22)); reflexivity|cbn].
    eapply steps_cons; [eapply (step_record _ _ _ _ _ _ _ 1 1 102 22); [reflexivity|auto|reflexivity|reflexivity|reflexivity]|cbn].
    eapply steps_cons; [eapply (step_done _ _ _ _ _ _ _ 2); [reflexivity|auto]|cbn].
    apply steps_nil.
  - repeat split.
Qed.
(** One process: the root waits *)
Example grid_alone : exists s, reachable first_points next_point true 1 2 [7] s /\ root s = Looping 0.
Proof.
  eexists. split.
  {   eapply steps_cons; [eapply (step_propose _ _ _ _ _ _ _ [10]); reflexivity|cbn].
  eapply steps_cons; [eapply (step_sent _ _ _ _ _ _ _ [10]); reflexivity|cbn].
  apply steps_nil. }
  reflexivity.
Qed.
(** Version 2 of pandas: the first result, although it is a good one, ends the grid *)
Example grid_pandas_2 : exists s, reachable first_points next_point false 2 2 [7] s /\ root s = Failed ValueError /\ csv s = None.
Proof.
  eexists. split.
  {   eapply steps_cons; [eapply (step_propose _ _ _ _ _ _ _ [10; 11]); reflexivity|cbn].
  eapply steps_cons; [eapply (step_send _ _ _ _ _ _ _ [10; 11] 10); [reflexivity|cbn; auto|reflexivity]|cbn].
  eapply steps_cons; [eapply (step_sent _ _ _ _ _ _ _ [10; 11]); reflexivity|cbn].
  eapply steps_cons; [eapply (step_receive _ _ _ _ _ _ _ 0 10); reflexivity|cbn].
  eapply steps_cons; [eapply (step_report _ _ _ _ _ _ _ 0 10 (Some 20)); reflexivity|cbn].
  eapply steps_cons; [eapply (step_reject _ _ _ _ _ _ _ 0 0 10 (Some 20)); [reflexivity|auto|reflexivity|now right]|cbn].
  apply steps_nil. }
  split; reflexivity.
Qed.
(** "Every point which is sent is run and its result recorded when the grid has ended" is false *)
Theorem C188_all_recorded_refuted : ~ (forall s : state nat nat, reachable first_points next_point true 3 2 [7] s -> root s = Done -> Permutation (sent s) (map fst (recorded s))).
Proof. intros H. destruct grid_of_two as (s & R & D & RC & _ & SE & _). assert (K := Permutation_length (H s R D)). rewrite RC, SE in K. discriminate. Qed.

Print Assumptions C188_conserved.
Print Assumptions C188_lost.
Print Assumptions C188_never.
Print Assumptions C188_hang.
Print Assumptions C188_alone.
Print Assumptions C188_pandas.
Print Assumptions C188_reject.
Print Assumptions C188_failed.
Print Assumptions C188_all_recorded_refuted.
