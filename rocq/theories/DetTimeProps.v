(** Theorems about the times the detached step stores. *)
From Coq Require Import String Bool List ZArith QArith Qround Lia Lqa.
From Verif Require Import PyBase DetStepModel.
Import ListNotations.
Open Scope string_scope.
Open Scope Q_scope.
Open Scope list_scope.

(** ** Helper lemmas *)
Lemma ceil_spec x n : (0 <= n)%Z -> inject_Z n < x <= inject_Z (n + 1) -> Qceiling x = (n + 1)%Z.
Proof.
  intros N [A B]. assert (C := Qle_ceiling x). assert (D := Qceiling_lt x).
  assert (inject_Z (Qceiling x - 1) < inject_Z (n + 1)) by (eapply Qlt_le_trans; eassumption).
  assert (inject_Z n < inject_Z (Qceiling x)) by (eapply Qlt_le_trans; eassumption).
  rewrite <- Zlt_Qlt in H, H0. lia.
Qed.
Lemma last_app1 {A} (l : list A) x d : last (l ++ [x]) d = x.
Proof. induction l as [|y l IH]; [reflexivity|]. cbn [app last]. destruct (l ++ [x]) eqn:E; [destruct l; discriminate|exact IH]. Qed.
Lemma last_map_seq (f : nat -> Q) n d : (0 < n)%nat -> last (map f (seq 1 n)) d = f n.
Proof. intro N. destruct n as [|n]; [lia|]. rewrite seq_S, map_app. cbn [map]. apply last_app1. Qed.

(** ** C101 *)
(** Multiples of the step after the start. *)
Definition grid (start dt : Q) (n : nat) : list Q := map (fun k => start + inject_Z (Z.of_nat k) * dt) (seq 1 n).
Lemma spaced_value start stop dt n : 0 < dt -> inject_Z (Z.of_nat n) < (stop - start) / dt + (1 # 2) <= inject_Z (Z.of_nat n + 1) ->
  spaced start stop dt = match n with
                         | O => Raise IndexError
                         | _ => Ok (grid start dt n ++ if negb (Qle_bool stop (start + inject_Z (Z.of_nat n) * dt)) then [stop] else [])
                         end.
Proof.
  intros P H.
  assert (E : (stop + dt / 2 - start) / dt == (stop - start) / dt + (1 # 2)) by (field; lra).
  assert (C : Qceiling ((stop + dt / 2 - start) / dt) = (Z.of_nat n + 1)%Z) by (apply ceil_spec; [lia|]; rewrite E; exact H).
  unfold spaced, arange. rewrite C. replace (Z.to_nat (Z.of_nat n + 1)) with (S n) by lia. cbn [seq map tl].
  destruct n as [|n]; [reflexivity|]. fold (grid start dt (S n)).
  assert (L : last (grid start dt (S n)) 0 = start + inject_Z (Z.of_nat (S n)) * dt) by (unfold grid; rewrite last_map_seq; [reflexivity|lia]).
  destruct (grid start dt (S n)) eqn:G; [discriminate|]. rewrite <- G in L |- *. rewrite L.
  destruct (negb _); [reflexivity|rewrite app_nil_r; reflexivity].
Qed.
Lemma div_lt a b c : 0 < c -> a < b / c <-> a * c < b.
Proof. intro P. split; intro H. - apply Qmult_lt_compat_r with (z := c) in H; [|exact P]. setoid_replace (b / c * c) with b in H by (field; lra). exact H.
  - apply Qlt_shift_div_l; assumption. Qed.
Lemma div_le a b c : 0 < c -> b / c <= a <-> b <= a * c.
Proof. intro P. split; intro H. - apply Qmult_le_compat_r with (z := c) in H; [|lra]. setoid_replace (b / c * c) with b in H by (field; lra). exact H.
  - apply Qle_shift_div_r; assumption. Qed.
Lemma exists_n x : 0 <= x -> exists n, inject_Z (Z.of_nat n) < x + (1 # 2) <= inject_Z (Z.of_nat n + 1).
Proof.
  intro P. assert (A := Qle_ceiling (x + (1 # 2))). assert (B := Qceiling_lt (x + (1 # 2))).
  assert (0 < Qceiling (x + (1 # 2)))%Z by (rewrite Zlt_Qlt; change (inject_Z 0) with 0; lra).
  exists (Z.to_nat (Qceiling (x + (1 # 2)) - 1)). rewrite Z2Nat.id by lia. replace (_ - 1 + 1)%Z with (Qceiling (x + (1 # 2))) by lia. split; assumption.
Qed.
(** With a time step: multiples of it after the start, the last of them or the end itself being the last time, which is not before the end and
    less than half a step after it. *)
Theorem C101_dt : forall dt n0 start stop, 0 < dt -> start <= stop ->
  (stop - start <= dt / 2 -> get_time_after_evo (Some dt) n0 start stop = Raise IndexError) /\
  (dt / 2 < stop - start -> exists n t, get_time_after_evo (Some dt) n0 start stop = Ok t /\ (0 < n)%nat /\
     (t = grid start dt n \/ t = grid start dt n ++ [stop]) /\
     stop <= last t 0 < stop + dt / 2 /\
     start + inject_Z (Z.of_nat n) * dt - dt / 2 < stop <= start + inject_Z (Z.of_nat n) * dt + dt / 2).
Proof.
  intros dt n0 start stop P O. assert (HD : dt / 2 == (1 # 2) * dt) by field. unfold get_time_after_evo, positive.
  destruct (Qle_bool dt 0) eqn:D; [apply Qle_bool_iff in D; lra|]. cbn [negb].
  assert (T : 0 <= (stop - start) / dt) by (apply Qle_shift_div_l; lra).
  destruct (exists_n _ T) as [n H]. rewrite (spaced_value _ _ _ n P H).
  assert (HH : inject_Z (Z.of_nat n) * dt - dt / 2 < stop - start /\ stop - start <= inject_Z (Z.of_nat n) * dt + dt / 2).
  { destruct H as [A B]. rewrite inject_Z_plus in B. change (inject_Z 1) with 1 in B. set (z := inject_Z (Z.of_nat n)) in *.
    assert (A' : z - (1 # 2) < (stop - start) / dt) by lra. assert (B' : (stop - start) / dt <= z + (1 # 2)) by lra.
    apply div_lt in A'; [|exact P]. apply div_le in B'; [|exact P].
    rewrite HD. split; lra. }
  rewrite !HD in *. split; intro K.
  - destruct n as [|n]; [reflexivity|exfalso]. assert (1 <= inject_Z (Z.of_nat (S n))).
    { change 1 with (inject_Z 1). rewrite <- Zle_Qle. lia. }
    assert (1 * dt <= inject_Z (Z.of_nat (S n)) * dt) by (apply Qmult_le_compat_r; lra). lra.
  - destruct n as [|n]; [exfalso; cbn [Z.of_nat] in HH; change (inject_Z 0) with 0 in HH; lra|].
    assert (L : last (grid start dt (S n)) 0 = start + inject_Z (Z.of_nat (S n)) * dt) by (unfold grid; rewrite last_map_seq; [reflexivity|lia]).
    set (z := inject_Z (Z.of_nat (S n))) in *.
    destruct (Qle_bool stop (start + z * dt)) eqn:Q; cbn [negb]; eexists; eexists; (split; [reflexivity|]); (split; [apply Nat.lt_0_succ|]).
    + split; [left; rewrite app_nil_r; reflexivity|]. rewrite app_nil_r, L. apply Qle_bool_iff in Q. fold z. split; lra.
    + split; [right; reflexivity|]. rewrite last_app1. fold z. split; lra.
Qed.
Print Assumptions C101_dt.
(** With a number of steps: as many times, equally spaced, the last one being the end. *)
Theorem C101_steps : forall n start stop, (0 < n)%nat -> start < stop ->
  exists t, get_time_after_evo None (Some (inject_Z (Z.of_nat n))) start stop = Ok t /\ length t = n /\
  (forall k, (k < n)%nat -> nth k t 0 == start + (stop - start) * (inject_Z (Z.of_nat (S k)) / inject_Z (Z.of_nat n))) /\ last t 0 == stop.
Proof.
  intros n start stop N O. unfold get_time_after_evo, positive.
  assert (Z : 1 <= inject_Z (Z.of_nat n)) by (change 1 with (inject_Z 1); rewrite <- Zle_Qle; lia).
  destruct (Qle_bool (inject_Z (Z.of_nat n)) 0) eqn:D; [apply Qle_bool_iff in D; lra|]. cbn [negb].
  set (dt := (stop - start) / inject_Z (Z.of_nat n)). assert (P : 0 < dt) by (apply Qlt_shift_div_l; lra).
  assert (E : (stop - start) / dt == inject_Z (Z.of_nat n)) by (unfold dt; field; lra).
  assert (F : start + inject_Z (Z.of_nat n) * dt == stop) by (unfold dt; field; lra).
  rewrite (spaced_value _ _ _ n P).
  2:{ rewrite E, inject_Z_plus. change (inject_Z 1) with 1. split; lra. }
  assert (Q : Qle_bool stop (start + inject_Z (Z.of_nat n) * dt) = true) by (apply Qle_bool_iff; rewrite F; lra). rewrite Q. cbn [negb]. rewrite app_nil_r.
  exists (grid start dt n). split; [destruct n; [lia|reflexivity]|]. unfold grid. split; [rewrite map_length, seq_length; reflexivity|]. split.
  - intros k K. rewrite nth_indep with (d' := (fun k => start + inject_Z (Z.of_nat k) * dt) 0%nat) by (rewrite map_length, seq_length; exact K).
    rewrite (map_nth (fun k => start + inject_Z (Z.of_nat k) * dt)), seq_nth by exact K. cbn [Nat.add]. unfold dt. field. lra.
  - rewrite last_map_seq by exact N. exact F.
Qed.
Print Assumptions C101_steps.
(** Without either, just the end. *)
Theorem C101_end : forall start stop, get_time_after_evo None None start stop = Ok [stop].
Proof. reflexivity. Qed.
(** The time step has priority; neither a step nor a number of 0 counts. *)
Theorem C101_priority : forall dt n start stop, 0 < dt -> get_time_after_evo (Some dt) n start stop = get_time_after_evo (Some dt) None start stop /\
  get_time_after_evo (Some 0) n start stop = get_time_after_evo None n start stop.
Proof. intros dt n start stop P. unfold get_time_after_evo, positive. destruct (Qle_bool dt 0) eqn:D; [apply Qle_bool_iff in D; lra|]. split; reflexivity. Qed.
Print Assumptions C101_priority.
(** The last time may lie after the end of the integration: in 2.6 years with steps of a year, the binary gets the age 3; and a step longer than
    twice the whole evolution fails. *)
Theorem C101_dt_refuted : ~ (forall dt start stop, 0 < dt -> start < stop -> exists t, get_time_after_evo (Some dt) None start stop = Ok t /\ last t 0 == stop).
Proof. intro H. destruct (H 1 0 2.6) as (t & E & L); [lra|lra|]. vm_compute in E. injection E as <-. vm_compute in L. discriminate. Qed.
Print Assumptions C101_dt_refuted.
Example C101_case : get_time_after_evo (Some 1) None 0 2.25 = Ok [0 + 1 * 1; 0 + 2 * 1; 2.25] /\ get_time_after_evo (Some 1) None 0 (1 # 2) = Raise IndexError.
Proof. split; vm_compute; reflexivity. Qed.
