(** Python's str.strip() on ASCII strings. *)
From Coq Require Import String Ascii List Bool PeanoNat Lia.
Import ListNotations.
Open Scope string_scope.

(** str.isspace() of the ASCII characters: tab to carriage return, file to unit separator, blank. *)
Definition is_space (c : ascii) : bool :=
  let n := nat_of_ascii c in (Nat.leb 9 n && Nat.leb n 13) || (Nat.leb 28 n && Nat.leb n 32).
Fixpoint lstrip (s : string) : string :=
  match s with EmptyString => "" | String c r => if is_space c then lstrip r else s end.
Fixpoint rstrip (s : string) : string :=
  match s with
  | EmptyString => ""
  | String c r => match rstrip r with
                  | EmptyString => if is_space c then "" else String c ""
                  | t => String c t
                  end
  end.
Definition strip (s : string) : string := lstrip (rstrip s).

(** ** Specification *)
Definition blank (s : string) : Prop := forall c, In c (list_ascii_of_string s) -> is_space c = true.
(** No blank at either end. *)
Definition trim (s : string) : Prop :=
  s = "" \/ (exists c r, s = String c r /\ is_space c = false) /\ (exists r c, s = r ++ String c "" /\ is_space c = false).
Definition stripped (s t : string) : Prop := exists a b, s = a ++ t ++ b /\ blank a /\ blank b /\ trim t.

Lemma str_nil_r (s : string) : s ++ "" = s.
Proof. induction s as [|c s IH]; cbn; [reflexivity|]. rewrite IH. reflexivity. Qed.
Lemma str_assoc (a b c : string) : a ++ (b ++ c) = (a ++ b) ++ c.
Proof. induction a as [|x a IH]; cbn; [reflexivity|]. rewrite IH. reflexivity. Qed.
Lemma list_app (a b : string) : list_ascii_of_string (a ++ b) = (list_ascii_of_string a ++ list_ascii_of_string b)%list.
Proof. induction a as [|x a IH]; cbn; [reflexivity|]. rewrite IH. reflexivity. Qed.
Lemma blank_nil : blank "".
Proof. intros c []. Qed.
Lemma blank_cons c s : is_space c = true -> blank s -> blank (String c s).
Proof. intros C B x [<-|X]; auto. Qed.
Lemma blank_app a b : blank a -> blank b -> blank (a ++ b).
Proof. intros A B c. rewrite list_app, in_app_iff. intros [?|?]; auto. Qed.

Definition ends_well (s : string) : Prop := s = "" \/ exists r c, s = r ++ String c "" /\ is_space c = false.
Lemma rstrip_spec s : exists b, s = rstrip s ++ b /\ blank b /\ ends_well (rstrip s).
Proof.
  induction s as [|c s (b & E & B & W)]; [exists ""; split; [reflexivity|split; [apply blank_nil|left; reflexivity]]|].
  cbn [rstrip]. destruct (rstrip s) as [|x t] eqn:R.
  - cbn in E. subst b. destruct (is_space c) eqn:C.
    + exists (String c s). split; [reflexivity|]. split; [apply blank_cons; assumption|left; reflexivity].
    + exists s. split; [reflexivity|]. split; [assumption|]. right. exists "", c. auto.
  - exists b. split; [cbn [append]; rewrite E at 1; reflexivity|]. split; [assumption|]. right.
    destruct W as [W|(r & d & W & D)]; [discriminate|]. exists (String c r), d. split; [cbn; rewrite W; reflexivity|assumption].
Qed.
Lemma lstrip_spec s : exists a, s = a ++ lstrip s /\ blank a /\ (lstrip s = "" \/ exists c r, lstrip s = String c r /\ is_space c = false).
Proof.
  induction s as [|c s (a & E & A & W)]; [exists ""; split; [reflexivity|split; [apply blank_nil|left; reflexivity]]|].
  cbn [lstrip]. destruct (is_space c) eqn:C.
  - exists (String c a). split; [cbn [append]; rewrite <- E; reflexivity|]. split; [apply blank_cons; assumption|assumption].
  - exists "". split; [reflexivity|]. split; [apply blank_nil|]. right. exists c, s. auto.
Qed.
Lemma last_char_app a b c : forall r d, a ++ b = r ++ String d "" -> b <> "" -> b = c -> exists r', c = r' ++ String d "".
Proof.
  induction a as [|x a IH]; intros r d E N ->; cbn in E.
  - exists r. exact E.
  - destruct r as [|y r]; cbn in E.
    + injection E as -> E. destruct a; [destruct c; [easy|discriminate]|discriminate].
    + injection E as -> E. eauto.
Qed.
Theorem strip_stripped s : stripped s (strip s).
Proof.
  unfold strip. destruct (rstrip_spec s) as (b & E & B & W). destruct (lstrip_spec (rstrip s)) as (a & E' & A & W').
  exists a, b. split; [rewrite str_assoc, <- E'; exact E|]. split; [exact A|]. split; [exact B|].
  destruct W' as [W'|(c & r & W' & C)]; [left; exact W'|]. right. split; [eauto|].
  destruct W as [W|(r' & d & W & D)]; [rewrite W in W'; discriminate|].
  destruct (last_char_app a (lstrip (rstrip s)) (lstrip (rstrip s)) r' d) as (r'' & Q);
    [rewrite <- E'; exact W|rewrite W'; discriminate|reflexivity|]. eauto.
Qed.

Lemma blank_prefix a : forall x t, blank a -> is_space x = false -> forall a' t', blank a' ->
  a ++ String x t = a' ++ t' -> t' = "" \/ (exists y r, t' = String y r /\ is_space y = false) -> a' = a /\ t' = String x t.
Proof.
  induction a as [|c a IH]; intros x t B X a' t' B' E W.
  - destruct a' as [|c' a']; [auto|]. cbn in E. injection E as -> E. rewrite (B' c') in X by (left; reflexivity). discriminate.
  - destruct a' as [|c' a']; cbn in E.
    + destruct W as [->|(y & r & -> & Y)]; [discriminate|]. injection E as -> E. rewrite (B y) in Y by (left; reflexivity). discriminate.
    + injection E as -> E. destruct (IH x t (fun d D => B d (or_intror D)) X a' t' (fun d D => B' d (or_intror D)) E W) as [-> ->]. auto.
Qed.
Lemma string_rev_inv s : s = "" \/ exists r c, s = r ++ String c "".
Proof.
  induction s as [|c s [->|(r & d & ->)]]; [auto| |]; right; [exists "", c|exists (String c r), d]; reflexivity.
Qed.
Lemma app_last_inv : forall a b c d, a ++ String c "" = b ++ String d "" -> a = b /\ c = d.
Proof.
  induction a as [|x a IH]; intros [|y b] c d E; cbn in E.
  - injection E as ->. auto.
  - injection E as _ E. destruct b; discriminate.
  - injection E as _ E. destruct a; discriminate.
  - injection E as -> E. apply IH in E as [-> ->]. auto.
Qed.
Lemma blank_last b c : blank (b ++ String c "") -> is_space c = true /\ blank b.
Proof.
  intros B. split; [apply B; rewrite list_app, in_app_iff; right; left; reflexivity|].
  intros x X. apply B. rewrite list_app, in_app_iff. left. exact X.
Qed.
Lemma length_app (a b : string) : String.length (a ++ b) = String.length a + String.length b.
Proof. induction a as [|x a IH]; cbn; [reflexivity|]. rewrite IH. reflexivity. Qed.
Lemma blank_suffix_n : forall n b b' t t', String.length b = n -> blank b -> blank b' -> ends_well t -> ends_well t' ->
  t ++ b = t' ++ b' -> t <> "" -> t' <> "" -> t = t'.
Proof.
  induction n as [|n IH]; intros b b' t t' L B B' W W' E N N'.
  - destruct b; [|discriminate]. rewrite str_nil_r in E. destruct (string_rev_inv b') as [->|(r & c & ->)].
    + rewrite str_nil_r in E. exact E.
    + exfalso. apply blank_last in B' as [C _]. destruct W as [->|(r' & d & -> & D)]; [easy|].
      rewrite str_assoc in E. apply app_last_inv in E as [_ ->]. congruence.
  - destruct (string_rev_inv b) as [->|(r & c & ->)]; [discriminate|].
    destruct (string_rev_inv b') as [->|(r' & c' & ->)].
    + exfalso. rewrite str_nil_r in E. apply blank_last in B as [C _]. destruct W' as [->|(r' & d & -> & D)]; [easy|].
      rewrite str_assoc in E. apply app_last_inv in E as [_ ->]. congruence.
    + apply blank_last in B as [_ B]. apply blank_last in B' as [_ B']. rewrite !str_assoc in E. apply app_last_inv in E as [E _].
      apply (IH r r'); auto. rewrite length_app in L. cbn in L. lia.
Qed.
(** The specification determines the result. *)
Theorem stripped_unique s t t' : stripped s t -> stripped s t' -> t = t'.
Proof.
  intros (a & b & E & A & B & T) (a' & b' & E' & A' & B' & T').
  assert (EMPTY : forall s a b a' b' t', blank a -> blank b -> s = a ++ "" ++ b -> s = a' ++ t' ++ b' -> trim t' -> t' = "").
  { clear. intros s a b a' b' t' A B E E' T'. destruct T' as [->|[(c & r & -> & C) _]]; [reflexivity|]. exfalso.
    assert (S : blank s) by (rewrite E; apply blank_app; assumption).
    rewrite (S c) in C; [discriminate|]. rewrite E', list_app, in_app_iff. right. left. reflexivity. }
  destruct T as [->|[(c & r & -> & C) TR]].
  - symmetry. eapply EMPTY; [exact A|exact B|exact E|exact E'|exact T'].
  - destruct T' as [->|[(c' & r' & -> & C') TR']].
    + eapply EMPTY; [exact A'|exact B'|exact E'|exact E|]. right. eauto.
    + rewrite E in E'. cbn [append] in E'.
      destruct (blank_prefix a c (r ++ b) A C a' (String c' (r' ++ b')) A' E' ltac:(right; eauto)) as [_ Q].
      apply (blank_suffix_n (String.length b) b b'); auto; try (right; assumption); try discriminate.
Qed.
Example strip_case : strip ("  " ++ String "009" "a b" ++ String "010" "") = "a b".
Proof. reflexivity. Qed.
