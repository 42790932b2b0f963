(** Python strings: the substring test. *)
From Coq Require Import String List Bool Ascii Lia.
Import ListNotations.
Local Open Scope string_scope.

(** [sub in s] *)
Fixpoint py_in (sub s : string) : bool :=
  prefix sub s || match s with EmptyString => false | String _ s' => py_in sub s' end.

Lemma prefix_append : forall a b, prefix a (a ++ b) = true.
Proof.
  induction a as [|x a IH]; intro b; [destruct b; reflexivity|].
  cbn [append prefix]. destruct (Ascii.ascii_dec x x); [apply IH|congruence].
Qed.

Lemma prefix_exists : forall a s, prefix a s = true -> exists b, s = a ++ b.
Proof.
  induction a as [|x a IH]; intros s H; [exists s; reflexivity|].
  destruct s as [|y s]; [discriminate|]. cbn [prefix] in H.
  destruct (Ascii.ascii_dec x y) as [->|]; [|discriminate].
  destruct (IH _ H) as [b ->]. exists b. reflexivity.
Qed.

(** The test is right: [sub] occurs in [s] as a contiguous block. *)
Lemma py_in_iff : forall sub s, py_in sub s = true <-> exists a b, s = a ++ sub ++ b.
Proof.
  intros sub s. split.
  - induction s as [|c s IH]; cbn [py_in]; intro H.
    + rewrite orb_false_r in H. apply prefix_exists in H. destruct H as [b ->].
      exists "", b. reflexivity.
    + apply orb_true_iff in H. destruct H as [H|H].
      * apply prefix_exists in H. destruct H as [b ->]. exists "", b. reflexivity.
      * destruct (IH H) as (a & b & ->). exists (String c a), b. reflexivity.
  - intros (a & b & ->). induction a as [|c a IH].
    + cbn [append]. destruct (sub ++ b) eqn:E; cbn [py_in];
      rewrite <- E, prefix_append; reflexivity.
    + cbn [append py_in]. rewrite IH. apply orb_true_r.
Qed.
