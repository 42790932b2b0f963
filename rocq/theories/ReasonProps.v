(** C44. *)
From Coq Require Import String List Bool Lia PeanoNat.
From Verif Require Import PyBase ReasonModel.
Import ListNotations.
Open Scope string_scope.
Open Scope nat_scope.
Open Scope list_scope.

(** Specification: the known reasons reported since the last reset, latest first, ... *)
Definition is_reset (a : string * option string) : bool :=
  String.eqb (fst a) "reason" && match snd a with None => true | Some _ => false end.
Fixpoint reported (seen : list string) (l : list (string * option string)) : list string :=
  match l with
  | [] => seen
  | a :: r =>
      if is_reset a then reported [] r
      else match snd a with
           | Some v => reported (if String.eqb (fst a) "reason" && inb String.eqb v priority then v :: seen else seen) r
           | None => reported seen r
           end
  end.
(** ... and the most important of them: the first of the list of priorities that was reported. *)
Definition most_important (seen : list string) : option string :=
  find (fun p => inb String.eqb p seen) priority.

Lemma index_some : forall v l n, index_of v l = Some n -> nth_error l n = Some v.
Proof.
  induction l as [|y l IH]; intros n H; cbn [index_of] in H; [discriminate|].
  destruct (String.eqb_spec v y) as [-> |N].
  - assert (n = 0) as -> by congruence. reflexivity.
  - destruct (index_of v l) as [m|] eqn:E; [|discriminate]. cbn [option_map] in H.
    assert (n = S m) as -> by congruence. cbn [nth_error]. apply IH. reflexivity.
Qed.
Lemma index_none : forall v l, index_of v l = None <-> inb String.eqb v l = false.
Proof.
  induction l as [|y l IH]; cbn [index_of inb]; [tauto|]. destruct (String.eqb v y); [split; discriminate|].
  rewrite <- IH. destruct (index_of v l); cbn [option_map]; split; congruence.
Qed.
Lemma find_cons : forall v seen l, NoDup l ->
  find (fun p => inb String.eqb p (v :: seen)) l =
  match index_of v l, find (fun p => inb String.eqb p seen) l with
  | None, f => f
  | Some n, Some w => match index_of w l with Some m => if n <? m then Some v else Some w | None => None end
  | Some n, None => Some v
  end.
Proof.
  intros v seen l ND. induction l as [|y l IH]; [reflexivity|]. inversion ND as [|? ? HN ND']; subst.
  specialize (IH ND'). cbn [find index_of]. cbn [inb] in *.
  destruct (String.eqb_spec y v) as [-> |NE].
  - rewrite String.eqb_refl. destruct (inb String.eqb v seen) eqn:I; cbn [index_of].
    + rewrite String.eqb_refl. reflexivity.
    + destruct (find (fun p => inb String.eqb p seen) l) as [w|] eqn:F; [|reflexivity].
      destruct (String.eqb_spec w v) as [-> |NW].
      * exfalso. apply HN. apply find_some in F. tauto.
      * destruct (index_of w l) as [m|] eqn:M; [reflexivity|].
        apply index_none in M. apply find_some in F. destruct F as [F _].
        destruct (inb_spec String.eqb_spec w l); [discriminate | tauto].
  - destruct (String.eqb_spec v y) as [|_]; [congruence|].
    destruct (inb String.eqb y seen) eqn:I.
    + destruct (index_of v l); cbn [option_map index_of]; [|reflexivity].
      rewrite String.eqb_refl. reflexivity.
    + rewrite IH. destruct (index_of v l) as [n|]; cbn [option_map]; [|reflexivity].
      destruct (find (fun p => inb String.eqb p seen) l) as [w|] eqn:F; [|reflexivity].
      destruct (String.eqb_spec w y) as [-> |NW].
      * exfalso. apply HN. apply find_some in F. tauto.
      * destruct (index_of w l); reflexivity.
Qed.
Lemma priority_nodup : NoDup priority.
Proof. unfold priority. repeat constructor; cbn [In]; intuition discriminate. Qed.

Definition consistent (st : reason_state) (seen : list string) : Prop :=
  r_reason st = most_important seen /\
  r_order st = match r_reason st with Some w => index_of w priority | None => None end.

Lemma most_important_known : forall seen w, most_important seen = Some w -> exists m, index_of w priority = Some m.
Proof.
  intros seen w H. apply find_some in H. destruct H as [H _]. destruct (index_of w priority) eqn:E; [eauto|].
  apply index_none in E. destruct (inb_spec String.eqb_spec w priority); [discriminate | tauto].
Qed.

Lemma assign_consistent : forall l st seen, consistent st seen ->
  consistent (fst (assign_all st l)) (reported seen l) /\
  snd (assign_all st l) =
    map (fun a => String.eqb (fst a) "reason" && match snd a with Some v => negb (inb String.eqb v priority) | None => false end) l.
Proof.
  induction l as [|[n v] l IH]; intros st seen C; [split; [exact C | reflexivity]|].
  cbn [assign_all reported map]. unfold set_attr, is_reset. cbn [fst snd].
  destruct (String.eqb n "reason") eqn:N; cbn [negb andb].
  - destruct v as [v|].
    + destruct C as [C1 C2]. destruct (index_of v priority) as [k|] eqn:K.
      * assert (inb String.eqb v priority = true) as I by
          (destruct (inb String.eqb v priority) eqn:I; [reflexivity | apply index_none in I; congruence]).
        rewrite I. cbn [negb].
        assert (forall st', consistent st' (v :: seen) ->
          consistent (fst (let (s, e) := assign_all st' l in (s, false :: e))) (reported (v :: seen) l) /\
          snd (let (s, e) := assign_all st' l in (s, false :: e)) = false ::
            map (fun a => String.eqb (fst a) "reason" && match snd a with Some v => negb (inb String.eqb v priority) | None => false end) l) as W.
        { intros st' C'. destruct (IH st' _ C') as [A B]. destruct (assign_all st' l) as [s e]. cbn [fst snd] in *. split; [exact A | congruence]. }
        pose proof (find_cons v seen priority priority_nodup) as FC. rewrite K in FC.
        change (find (fun p => inb String.eqb p seen) priority) with (most_important seen) in FC.
        change (find (fun p => inb String.eqb p (v :: seen)) priority) with (most_important (v :: seen)) in FC.
        rewrite C1 in C2. rewrite C1.
        destruct (most_important seen) as [w|] eqn:M.
        -- destruct (most_important_known _ _ M) as [m E]. rewrite E in *. rewrite C2.
           destruct (k <? m); apply W; split; cbn [r_reason r_order]; rewrite ?C1, ?FC; try congruence.
        -- apply W. split; cbn [r_reason r_order]; [congruence | symmetry; exact K].
      * apply index_none in K. rewrite K. cbn [negb].
        destruct (IH st seen (conj C1 C2)) as [A B]. destruct (assign_all st l) as [s e]. cbn [fst snd] in *.
        split; [exact A | congruence].
    + assert (consistent (RState None None) []) as C' by (split; [vm_compute; reflexivity | reflexivity]).
      destruct (IH _ _ C') as [A B]. destruct (assign_all (RState None None) l) as [s e]. cbn [fst snd] in *.
      split; [exact A | congruence].
  - assert (reported seen ((n, v) :: l) = reported seen l) as R.
    { cbn [reported]. unfold is_reset. cbn [fst snd]. rewrite N. destruct v; reflexivity. }
    cbn [reported] in R. unfold is_reset in R. cbn [fst snd] in R. rewrite N in R. cbn [andb] in R. rewrite R.
    destruct (IH st seen C) as [A B]. destruct (assign_all st l) as [s e]. cbn [fst snd] in *. split; [exact A | congruence].
Qed.

(** C44: after any sequence of assignments the reason is the most important one reported since
    the last reset, the object counts as true exactly if there is one, only assignments of
    unknown reasons raise, and other attributes are never set. *)
Theorem ignore_reason : forall l, exists st, new_reason = Ok st /\
  let (final, raised) := assign_all st l in
  r_reason final = most_important (reported [] l) /\
  (truth final = true <-> reported [] l <> []) /\
  (r_order final = match r_reason final with Some w => index_of w priority | None => None end) /\
  (forall i n v, nth_error l i = Some (n, v) ->
     (nth_error raised i = Some true <-> n = "reason" /\ exists w, v = Some w /\ ~ In w priority)).
Proof.
  intro l. exists (RState None None). split; [reflexivity|].
  assert (consistent (RState None None) []) as C by (split; [vm_compute; reflexivity | reflexivity]).
  destruct (assign_consistent l _ _ C) as [[A1 A2] B]. destruct (assign_all (RState None None) l) as [f e].
  cbn [fst snd] in *. split; [exact A1|]. split; [|split; [exact A2|]].
  - unfold truth. rewrite A1.
    assert (forall seen, (forall x, In x seen -> In x priority) -> forall x, In x (reported seen l) -> In x priority) as K.
    { clear. induction l as [|[n v] l IH]; intros seen S; [exact S|]. cbn [reported]. cbn [snd fst].
      destruct (is_reset (n, v)); [apply IH; intros ? []|]. destruct v as [v|]; [|apply IH; exact S].
      destruct (String.eqb n "reason" && inb String.eqb v priority) eqn:E; [|apply IH; exact S].
      apply andb_true_iff in E. destruct E as [_ E]. destruct (inb_spec String.eqb_spec v priority); [|discriminate].
      apply IH. intros x [-> |X]; [assumption | apply S; exact X]. }
    specialize (K [] (fun _ F => match F with end)).
    destruct (reported [] l) as [|x r] eqn:R; [split; [vm_compute; discriminate | congruence]|].
    destruct (most_important (x :: r)) eqn:M; [split; [discriminate | reflexivity]|].
    exfalso. pose proof (find_none _ _ M x (K x (or_introl eq_refl))) as F. cbn [inb] in F.
    rewrite String.eqb_refl in F. discriminate.
  - intros i n v H. rewrite B, (map_nth_error _ _ _ H). cbn [fst snd]. split.
    + intro E. assert (String.eqb n "reason" && match v with Some v => negb (inb String.eqb v priority) | None => false end = true) as E' by congruence.
      apply andb_true_iff in E'. destruct E' as [E1 E2]. apply String.eqb_eq in E1. split; [exact E1|].
      destruct v as [w|]; [|discriminate]. exists w. split; [reflexivity|].
      destruct (inb_spec String.eqb_spec w priority); [discriminate | assumption].
    + intros [-> [w [-> W]]]. rewrite String.eqb_refl. destruct (inb_spec String.eqb_spec w priority); [tauto | reflexivity].
Qed.
Print Assumptions ignore_reason.

Example ignore_reason_case :
  let l := [("reason", Some "ignored_no_RLO"); ("reason", Some "ignored_no_history1"); ("reason", None);
            ("order", Some "ignored_no_history1"); ("reason", Some "ignored_no_final_profile");
            ("reason", Some "no such reason"); ("reason", Some "corrupted_history2"); ("reason", Some "ignored_no_RLO")] in
  reported [] l = ["ignored_no_RLO"; "corrupted_history2"; "ignored_no_final_profile"] /\
  assign_all (RState None None) l =
    (RState (Some "corrupted_history2") (Some 4), [false; false; false; false; false; true; false; false]).
Proof. vm_compute. split; reflexivity. Qed.
