(** Shared vocabulary: Python exceptions as values, Python dictionaries as
    association lists in insertion order, Python list indexing and slicing. *)
From Coq Require Import String List Bool ZArith Lia.
Import ListNotations.
Set Implicit Arguments.

(** ** Exceptions as values *)

Inductive exn :=
| ValueError | RuntimeError | FlowError | KeyError | IndexError | TypeError
| AttributeError | PermissionError | FileExistsError | FileNotFoundError
| NotImplementedError | OtherError (name : string).

Inductive result (A : Type) :=
| Ok (a : A)
| Raise (e : exn).
Arguments Ok {A} _.
Arguments Raise {A} _.

Definition rbind {A B} (x : result A) (f : A -> result B) : result B :=
  match x with Ok a => f a | Raise e => Raise e end.

Definition is_ok {A} (x : result A) : bool :=
  match x with Ok _ => true | Raise _ => false end.

(** ** Dictionaries

    A Python dict is an association list in insertion order with distinct keys;
    [d[k] = v] overwrites in place when the key exists and appends otherwise. *)

Section Dict.
  Context {K V : Type} (eqb : K -> K -> bool).
  Hypothesis eqb_spec : forall x y, reflect (x = y) (eqb x y).

  Definition dict := list (K * V).

  Fixpoint dget (d : dict) (k : K) : option V :=
    match d with
    | [] => None
    | (k', v) :: d' => if eqb k k' then Some v else dget d' k
    end.

  Fixpoint dset (d : dict) (k : K) (v : V) : dict :=
    match d with
    | [] => [(k, v)]
    | (k', v') :: d' => if eqb k k' then (k', v) :: d' else (k', v') :: dset d' k v
    end.

  Definition dkeys (d : dict) : list K := map fst d.
  Definition dmem (d : dict) (k : K) : bool :=
    match dget d k with Some _ => true | None => false end.

  (** Writing a sequence of assignments, first one first. *)
  Definition dset_all (d : dict) (l : list (K * V)) : dict :=
    fold_left (fun acc kv => dset acc (fst kv) (snd kv)) l d.

  (** The last assignment to [k] in [l], if any. *)
  Definition last_write (l : list (K * V)) (k : K) : option V :=
    fold_left (fun acc kv => if eqb k (fst kv) then Some (snd kv) else acc) l None.

  Lemma eqb_refl : forall x, eqb x x = true.
  Proof using eqb_spec. intro x. destruct (eqb_spec x x); congruence. Qed.

  Lemma dget_dset : forall d k v k',
    dget (dset d k v) k' = if eqb k' k then Some v else dget d k'.
  Proof using eqb_spec.
    induction d as [|[k0 v0] d IH]; intros k v k'; simpl.
    - reflexivity.
    - destruct (eqb_spec k k0) as [->|Hk]; simpl.
      + destruct (eqb_spec k' k0); reflexivity.
      + rewrite IH. destruct (eqb_spec k' k0) as [->|Hk'].
        * destruct (eqb_spec k0 k); congruence.
        * reflexivity.
  Qed.

  Lemma dget_dset_same : forall d k v, dget (dset d k v) k = Some v.
  Proof using eqb_spec. intros. rewrite dget_dset, eqb_refl. reflexivity. Qed.

  Lemma dget_dset_other : forall d k v k', k' <> k -> dget (dset d k v) k' = dget d k'.
  Proof using eqb_spec. intros. rewrite dget_dset. destruct (eqb_spec k' k); congruence. Qed.

  Lemma last_write_gen : forall l k acc,
    fold_left (fun acc kv => if eqb k (fst kv) then Some (snd kv) else acc) l acc
    = match last_write l k with Some v => Some v | None => acc end.
  Proof using Type.
    unfold last_write.
    induction l as [|[k0 v0] l IH]; intros k acc; simpl; [reflexivity|].
    rewrite IH. rewrite (IH k (if eqb k k0 then Some v0 else None)).
    destruct (fold_left _ l None); [reflexivity|].
    destruct (eqb k k0); reflexivity.
  Qed.

  Lemma last_write_app : forall l1 l2 k,
    last_write (l1 ++ l2) k
    = match last_write l2 k with Some v => Some v | None => last_write l1 k end.
  Proof using Type.
    intros. unfold last_write at 1. rewrite fold_left_app. apply last_write_gen.
  Qed.

  Lemma last_write_cons : forall k0 v0 l k,
    last_write ((k0, v0) :: l) k
    = match last_write l k with
      | Some v => Some v
      | None => if eqb k k0 then Some v0 else None
      end.
  Proof using Type. intros. apply (last_write_app [(k0, v0)] l k). Qed.

  Lemma dget_dset_all : forall l d k,
    dget (dset_all d l) k
    = match last_write l k with Some v => Some v | None => dget d k end.
  Proof using eqb_spec.
    induction l as [|[k0 v0] l IH]; intros d k; [reflexivity|].
    unfold dset_all in *. cbn [fold_left fst snd]. rewrite IH, last_write_cons, dget_dset.
    destruct (last_write l k); [reflexivity|]. destruct (eqb k k0); reflexivity.
  Qed.

  Lemma dget_None_notin : forall d k, dget d k = None <-> ~ In k (dkeys d).
  Proof using eqb_spec.
    induction d as [|[k0 v0] d IH]; intro k; simpl; [tauto|].
    destruct (eqb_spec k k0) as [->|Hk].
    - split; [discriminate|]. intro H. exfalso. apply H. left. reflexivity.
    - rewrite IH. split; intros H; [intros [->|H']; tauto | tauto].
  Qed.

  Lemma dget_Some_in : forall d k v, dget d k = Some v -> In (k, v) d.
  Proof using eqb_spec.
    induction d as [|[k0 v0] d IH]; intros k v; simpl; [discriminate|].
    destruct (eqb_spec k k0) as [->|Hk]; intro H.
    - left. congruence.
    - right. auto.
  Qed.

  Lemma dget_in_nodup : forall d k v,
    NoDup (dkeys d) -> In (k, v) d -> dget d k = Some v.
  Proof using eqb_spec.
    induction d as [|[k0 v0] d IH]; intros k v ND HI; simpl in *; [tauto|].
    inversion ND as [|? ? Hn ND']; subst.
    destruct HI as [E|HI].
    - inversion E; subst. rewrite eqb_refl. reflexivity.
    - destruct (eqb_spec k k0) as [->|_]; [|auto].
      exfalso. apply Hn. apply (in_map fst) in HI. exact HI.
  Qed.

  Lemma dkeys_dset : forall d k v,
    dkeys (dset d k v) = if dmem d k then dkeys d else dkeys d ++ [k].
  Proof using eqb_spec.
    unfold dmem. induction d as [|[k0 v0] d IH]; intros k v; simpl; [reflexivity|].
    destruct (eqb_spec k k0) as [->|Hk]; simpl; [reflexivity|].
    rewrite IH. destruct (dget d k); reflexivity.
  Qed.

  Lemma NoDup_dset : forall d k v, NoDup (dkeys d) -> NoDup (dkeys (dset d k v)).
  Proof using eqb_spec.
    intros d k v ND. rewrite dkeys_dset. unfold dmem.
    destruct (dget d k) eqn:E; [assumption|].
    apply dget_None_notin in E.
    rewrite <- (rev_involutive (dkeys d ++ [k])). apply NoDup_rev.
    rewrite rev_app_distr. simpl. constructor.
    - rewrite <- in_rev. assumption.
    - apply NoDup_rev. assumption.
  Qed.

  Lemma NoDup_dset_all : forall l d, NoDup (dkeys d) -> NoDup (dkeys (dset_all d l)).
  Proof using eqb_spec.
    induction l as [|[k v] l IH]; intros d ND; [assumption|].
    apply IH. apply NoDup_dset. assumption.
  Qed.
End Dict.

(** ** Lists: membership test, Python indexing and slicing *)

Section Lists.
  Context {A : Type} (eqb : A -> A -> bool).
  Hypothesis eqb_spec : forall x y, reflect (x = y) (eqb x y).

  Fixpoint inb (x : A) (l : list A) : bool :=
    match l with
    | [] => false
    | y :: l' => if eqb x y then true else inb x l'
    end.

  Lemma inb_spec : forall x l, reflect (In x l) (inb x l).
  Proof using eqb_spec.
    intros x l. induction l as [|y l IH]; simpl.
    - constructor. tauto.
    - destruct (eqb_spec x y) as [->|H]; [constructor; tauto|].
      destruct IH; constructor; intuition congruence.
  Qed.
End Lists.

(** Python index normalisation: [l[i]] with possibly negative [i];
    [None] stands for IndexError. *)
Definition py_nth {A} (l : list A) (i : Z) : option A :=
  let n := Z.of_nat (length l) in
  let j := if (i <? 0)%Z then (i + n)%Z else i in
  if (j <? 0)%Z then None else nth_error l (Z.to_nat j).

(** Python slice [l[0:stop]] with possibly negative [stop] (clipped). *)
Definition py_prefix {A} (l : list A) (stop : Z) : list A :=
  let n := Z.of_nat (length l) in
  let s := if (stop <? 0)%Z then Z.max 0 (stop + n)%Z else stop in
  firstn (Z.to_nat s) l.

(** Python slice [l[start:]] with possibly negative [start] (clipped). *)
Definition py_suffix {A} (l : list A) (start : Z) : list A :=
  let n := Z.of_nat (length l) in
  let s := if (start <? 0)%Z then Z.max 0 (start + n)%Z else start in
  skipn (Z.to_nat s) l.

Lemma py_nth_nonneg : forall A (l : list A) (i : nat),
  py_nth l (Z.of_nat i) = nth_error l i.
Proof.
  intros A l i. unfold py_nth.
  destruct (Z.of_nat i <? 0)%Z eqn:E; [apply Z.ltb_lt in E; lia|].
  rewrite E, Nat2Z.id. reflexivity.
Qed.

Lemma py_prefix_nonneg : forall A (l : list A) (i : nat),
  py_prefix l (Z.of_nat i) = firstn i l.
Proof.
  intros A l i. unfold py_prefix.
  destruct (Z.of_nat i <? 0)%Z eqn:E; [apply Z.ltb_lt in E; lia|].
  rewrite Nat2Z.id. reflexivity.
Qed.

Arguments eqb_refl {K eqb} eqb_spec x.
Arguments dget_dset {K V eqb} eqb_spec d k v k'.
Arguments dget_dset_same {K V eqb} eqb_spec d k v.
Arguments dget_dset_other {K V eqb} eqb_spec d k v k' _.
Arguments dget_dset_all {K V eqb} eqb_spec l d k.
Arguments dget_None_notin {K V eqb} eqb_spec d k.
Arguments dget_Some_in {K V eqb} eqb_spec d k v _.
Arguments dget_in_nodup {K V eqb} eqb_spec d k v _ _.
Arguments dkeys_dset {K V eqb} eqb_spec d k v.
Arguments NoDup_dset {K V eqb} eqb_spec d k v _.
Arguments NoDup_dset_all {K V eqb} eqb_spec l d _.
Arguments inb_spec {A eqb} eqb_spec x l.
