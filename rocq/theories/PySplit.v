(** Python's str.split with a non-empty separator. *)
From Coq Require Import String List Bool Ascii Arith Lia.
From Verif Require Import PyStr.
Import ListNotations.
Local Open Scope string_scope.

Fixpoint sdrop (n : nat) (s : string) : string :=
  match n, s with O, _ => s | S n', String _ s' => sdrop n' s' | S _, EmptyString => EmptyString end.
(** The text before and after the first occurrence of [sep]. *)
Fixpoint partition (sep s : string) : option (string * string) :=
  if prefix sep s then Some ("", sdrop (String.length sep) s)
  else match s with
       | EmptyString => None
       | String c s' => match partition sep s' with Some (a, b) => Some (String c a, b) | None => None end
       end.
Fixpoint split_fuel (fuel : nat) (sep s : string) : list string :=
  match fuel with
  | O => [s]
  | S fuel' => match partition sep s with Some (a, b) => a :: split_fuel fuel' sep b | None => [s] end
  end.
(** [s.split(sep)]: every further part is shorter, so the length bounds the number of parts. *)
Definition split (sep s : string) : list string := split_fuel (String.length s) sep s.

(** ** What it is *)
Lemma sdrop_app : forall a b, sdrop (String.length a) (a ++ b) = b.
Proof. induction a as [|c a IH]; intros b; [reflexivity|]. apply IH. Qed.
Lemma str_app_nil (s : string) : s ++ "" = s.
Proof. induction s as [|c s IH]; [reflexivity|]. cbn. f_equal. exact IH. Qed.
Lemma str_app_assoc (a b c : string) : a ++ (b ++ c) = (a ++ b) ++ c.
Proof. induction a as [|x a IH]; [reflexivity|]. cbn. f_equal. exact IH. Qed.
Lemma len_app (a b : string) : String.length (a ++ b) = String.length a + String.length b.
Proof. induction a as [|x a IH]; [reflexivity|]. cbn. f_equal. exact IH. Qed.
Theorem partition_some : forall sep s a b, partition sep s = Some (a, b) <->
  s = a ++ sep ++ b /\ forall a' b', s = a' ++ sep ++ b' -> String.length a <= String.length a'.
Proof.
  intros sep. induction s as [|c s IH]; intros a b.
  - unfold partition. destruct (prefix sep "") eqn:P.
    + destruct sep; [|discriminate]. split.
      * intros E. assert (A : a = "" /\ b = "") by (split; cbn in E; congruence). destruct A as [-> ->]. split; [reflexivity|]. intros; apply Nat.le_0_l.
      * intros [E _]. destruct a; [|discriminate]. cbn in E. subst. reflexivity.
    + split; [discriminate|]. intros [E _]. destruct a as [|x a]; [|discriminate]. cbn in E. exfalso. rewrite E, prefix_append in P. discriminate.
  - cbn [partition]. destruct (prefix sep (String c s)) eqn:P.
    + apply prefix_exists in P as [r R]. rewrite R, sdrop_app. split.
      * intros E. assert (A : a = "" /\ b = r) by (split; congruence). destruct A as [-> ->]. split; [reflexivity|]. intros; apply Nat.le_0_l.
      * intros [E M]. specialize (M "" r eq_refl). destruct a; [|cbn in M; lia]. cbn in E.
        assert (r = b). { rewrite <- (sdrop_app sep r), E. apply sdrop_app. } subst. reflexivity.
    + assert (NP : forall r, String c s <> sep ++ r) by (intros r E; rewrite E, prefix_append in P; discriminate).
      destruct (partition sep s) as [[a0 b0]|] eqn:Q.
      * destruct (proj1 (IH a0 b0) eq_refl) as [E M]. split.
        -- intros F. assert (A : a = String c a0 /\ b = b0) by (split; congruence). destruct A as [-> ->]. split; [cbn; rewrite E; reflexivity|].
           intros [|x a'] b' H; [exfalso; exact (NP b' H)|]. cbn in H |- *. assert (s = a' ++ sep ++ b') by congruence. specialize (M a' b' H0). lia.
        -- intros [F M']. destruct a as [|x a]; [exfalso; exact (NP b F)|]. cbn in F. assert (c = x /\ s = a ++ sep ++ b) as [-> Fs] by (split; congruence).
           assert (Some (a0, b0) = Some (a, b)) as G; [|injection G as -> ->; reflexivity]. apply IH. split; [exact Fs|].
           intros a' b' H. assert (MM := M' (String x a') b'). cbn in MM. rewrite H in MM. specialize (MM eq_refl). lia.
      * split; [discriminate|]. intros [F M']. destruct a as [|x a]; [exfalso; exact (NP b F)|]. cbn in F.
        assert (c = x /\ s = a ++ sep ++ b) as [-> Fs] by (split; congruence).
        assert (None = Some (a, b)) as G; [|discriminate]. apply IH. split; [exact Fs|].
        intros a' b' H. assert (MM := M' (String x a') b'). cbn in MM. rewrite H in MM. specialize (MM eq_refl). lia.
Qed.
Theorem partition_none : forall sep s, partition sep s = None <-> py_in sep s = false.
Proof.
  intros sep. induction s as [|c s IH]; unfold partition; fold partition; unfold py_in; fold py_in.
  - destruct (prefix sep ""); [split; discriminate|]. split; reflexivity.
  - destruct (prefix sep (String c s)); [split; discriminate|]. cbn [orb]. rewrite <- IH. destruct (partition sep s) as [[a b]|]; split; congruence.
Qed.
(** The fuel is enough: joining the parts gives the text back and no part contains the separator. *)
Fixpoint sjoin (sep : string) (l : list string) : string :=
  match l with [] => "" | [s] => s | s :: l' => s ++ sep ++ sjoin sep l' end.
Lemma split_cons sep s a b : sep <> "" -> partition sep s = Some (a, b) -> split sep s = a :: split sep b.
Proof.
  intros N P. assert (E := proj1 (proj1 (partition_some sep s a b) P)). unfold split.
  assert (L : String.length b < String.length s). { rewrite E, !len_app. destruct sep; [congruence|]. cbn. lia. }
  destruct (String.length s) as [|n] eqn:LS; [lia|]. cbn [split_fuel]. rewrite P. f_equal.
  clear -N L. assert (G : forall n m b, String.length b <= n -> String.length b <= m -> split_fuel n sep b = split_fuel m sep b).
  { clear -N. induction n as [|n IH]; intros [|m] b Ln Lm; cbn [split_fuel].
    - reflexivity.
    - destruct b; [|cbn in Ln; lia]. destruct sep; [congruence|]. reflexivity.
    - destruct b; [|cbn in Lm; lia]. destruct sep; [congruence|]. reflexivity.
    - destruct (partition sep b) as [[a c]|] eqn:P; [|reflexivity]. f_equal.
      assert (E := proj1 (proj1 (partition_some sep b a c) P)). assert (String.length c < String.length b) by (rewrite E, !len_app; destruct sep; [congruence|]; cbn; lia).
      apply IH; lia. }
  apply G; lia.
Qed.
Lemma split_one sep s : sep <> "" -> partition sep s = None -> split sep s = [s].
Proof. intros N P. unfold split. destruct (String.length s); cbn [split_fuel]; [reflexivity|]. rewrite P. reflexivity. Qed.
Theorem split_spec : forall sep s, sep <> "" ->
  sjoin sep (split sep s) = s /\ split sep s <> [] /\ Forall (fun p => py_in sep p = false) (split sep s).
Proof.
  intros sep s N. remember (String.length s) as n eqn:L. revert s L. induction n as [n IH] using lt_wf_ind. intros s L.
  destruct (partition sep s) as [[a b]|] eqn:P.
  - rewrite (split_cons sep s a b N P). destruct (proj1 (partition_some sep s a b) P) as [E M].
    destruct (IH (String.length b)) with (s := b) as (J & NE & F); [subst n; rewrite E, !len_app; destruct sep; [congruence|]; cbn; lia|reflexivity|].
    split; [|split; [discriminate|]].
    + cbn [sjoin]. destruct (split sep b) as [|q r] eqn:Q; [congruence|]. rewrite J. symmetry. exact E.
    + constructor; [|exact F]. destruct (py_in sep a) eqn:I; [|reflexivity]. exfalso. apply py_in_iff in I as (u & v & I).
      assert (H : s = u ++ sep ++ (v ++ sep ++ b)) by (rewrite E, I, <- !str_app_assoc; reflexivity). specialize (M _ _ H). rewrite I in M.
      rewrite !len_app in M. destruct sep; [congruence|]. cbn in M. lia.
  - rewrite (split_one sep s N P). split; [reflexivity|]. split; [discriminate|]. constructor; [|constructor]. apply partition_none. exact P.
Qed.
