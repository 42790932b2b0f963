(** str.replace(old, new) for a non-empty [old], and "_".join. *)
From Coq Require Import String Ascii List Bool Lia.
From Verif Require Import PyStr.
Import ListNotations.
Open Scope string_scope.

(** Occurrences are replaced from left to right; [skip] characters still belong to the last
    occurrence. *)
Fixpoint replace_from (old new s : string) (skip : nat) : string :=
  match s with
  | EmptyString => EmptyString
  | String c s' =>
      match skip with
      | S k => replace_from old new s' k
      | O => if prefix old s then new ++ replace_from old new s' (String.length old - 1)
             else String c (replace_from old new s' 0)
      end
  end.
Definition py_replace (old new s : string) : string := replace_from old new s 0.

Lemma app_assoc_s : forall a b c : string, (a ++ b) ++ c = a ++ (b ++ c).
Proof. induction a as [|x a IH]; intros; [reflexivity|]. cbn [append]. rewrite IH. reflexivity. Qed.
Lemma app_nil_s : forall a : string, a ++ "" = a.
Proof. induction a as [|x a IH]; [reflexivity|]. cbn [append]. rewrite IH. reflexivity. Qed.

Lemma replace_skip : forall old new a s, replace_from old new (a ++ s) (String.length a) = py_replace old new s.
Proof. induction a as [|x a IH]; intro s; [reflexivity|]. cbn [append String.length replace_from]. apply IH. Qed.

(** An occurrence at the front is replaced. *)
Lemma replace_match : forall old new s, old <> "" -> py_replace old new (old ++ s) = new ++ py_replace old new s.
Proof.
  intros old new s N. destruct old as [|c o]; [congruence|].
  unfold py_replace at 1. cbn [append replace_from].
  change (String c (o ++ s)) with (String c o ++ s). rewrite prefix_append.
  replace (String.length (String c o) - 1) with (String.length o) by (cbn [String.length]; lia).
  rewrite replace_skip. reflexivity.
Qed.

(** Nothing starts in the part [a]. *)
Fixpoint none_starts (old a rest : string) : bool :=
  match a with
  | EmptyString => true
  | String c a' => negb (prefix old (a ++ rest)) && none_starts old a' rest
  end.
Lemma replace_nomatch : forall old new a s, none_starts old a s = true ->
  py_replace old new (a ++ s) = a ++ py_replace old new s.
Proof.
  intros old new. induction a as [|c a IH]; intros s H; [reflexivity|].
  cbn [none_starts] in H. apply andb_true_iff in H. destruct H as [P H].
  unfold py_replace at 1. cbn [append replace_from]. cbn [append] in P.
  destruct (prefix old (String c (a ++ s))); [discriminate|].
  f_equal. apply IH. exact H.
Qed.

(** Two strings differ at a position that both have. *)
Fixpoint clash (a b : string) : bool :=
  match a, b with
  | String x a', String y b' => if ascii_dec x y then clash a' b' else true
  | _, _ => false
  end.
Lemma clash_prefix : forall a b s, clash a b = true -> prefix a (b ++ s) = false.
Proof.
  induction a as [|x a IH]; intros b s H; [discriminate|]. destruct b as [|y b]; [discriminate|].
  cbn [clash] in H. cbn [append prefix]. destruct (ascii_dec x y); [apply IH; exact H | reflexivity].
Qed.
Fixpoint none_clash (old a next : string) : bool :=
  match a with
  | EmptyString => true
  | String c a' => clash old (a ++ next) && none_clash old a' next
  end.
Lemma none_clash_starts : forall old a next s, none_clash old a next = true -> none_starts old a (next ++ s) = true.
Proof.
  induction a as [|c a IH]; intros next s H; [reflexivity|]. cbn [none_clash none_starts] in *.
  apply andb_true_iff in H. destruct H as [C H]. apply andb_true_iff. split; [|apply IH; exact H].
  rewrite <- app_assoc_s, clash_prefix by exact C. reflexivity.
Qed.

(** A separator that does not occur in [old]. *)
Fixpoint lacks (c : ascii) (s : string) : Prop :=
  match s with EmptyString => True | String x s' => x <> c /\ lacks c s' end.
Lemma lacks_prefix : forall c old a s, lacks c old -> old <> "" ->
  prefix old (a ++ String c s) = prefix old a.
Proof.
  intros c. induction old as [|x o IH]; intros a s L N; [congruence|]. destruct L as [X L].
  destruct a as [|y a].
  - cbn [append prefix]. destruct (ascii_dec x c); [congruence | reflexivity].
  - cbn [append prefix]. destruct (ascii_dec x y); [|reflexivity].
    destruct o as [|z o]; [destruct a; reflexivity|]. apply IH; [exact L | discriminate].
Qed.
Lemma replace_from_sep : forall old new c a s k, lacks c old -> old <> "" -> k <= String.length a ->
  replace_from old new (a ++ String c s) k = replace_from old new a k ++ String c (py_replace old new s).
Proof.
  intros old new c. induction a as [|x a IH]; intros s k L N K.
  - cbn [String.length] in K. destruct k; [|lia]. cbn [append replace_from].
    pose proof (lacks_prefix c old "" s L N) as P. cbn [append] in P.
    rewrite P. destruct old; [congruence|]. reflexivity.
  - cbn [append replace_from]. destruct k as [|k].
    + change (String x (a ++ String c s)) with (String x a ++ String c s). rewrite lacks_prefix by assumption.
      destruct (prefix old (String x a)) eqn:P.
      * rewrite app_assoc_s. f_equal. apply IH; [assumption | assumption|].
        destruct (prefix_exists _ _ P) as [b E]. destruct old as [|z o]; [congruence|].
        cbn [append] in E. injection E as _ E. rewrite E.
        replace (String.length (String z o) - 1) with (String.length o) by (cbn [String.length]; lia).
        clear. induction o as [|w o IHo]; cbn [append String.length]; lia.
      * cbn [append]. f_equal. apply IH; [assumption | assumption | lia].
    + apply IH; [assumption | assumption|]. cbn [String.length] in K. lia.
Qed.
Lemma replace_sep : forall old new c a s, lacks c old -> old <> "" ->
  py_replace old new (a ++ String c s) = py_replace old new a ++ String c (py_replace old new s).
Proof. intros. apply replace_from_sep; [assumption | assumption | lia]. Qed.

(** ** "_".join(tokens) *)
Fixpoint trail (l : list string) : string :=
  match l with [] => "" | e :: r => "_" ++ e ++ trail r end.
Lemma join_trail : forall e l, String.concat "_" (e :: l) = e ++ trail l.
Proof.
  intros e l. revert e. induction l as [|x l IH]; intro e; [cbn; rewrite app_nil_s; reflexivity|].
  change (String.concat "_" (e :: x :: l)) with (e ++ "_" ++ String.concat "_" (x :: l)).
  rewrite IH. reflexivity.
Qed.

(** Removing "_tag" from joined words of a vocabulary removes exactly the words [tag] after
    the first, provided the pattern cannot start inside another word. *)
Definition removable (tag : string) (first words : list string) : bool :=
  forallb (fun e => none_starts ("_" ++ tag) e "" && forallb (fun n => none_clash ("_" ++ tag) e ("_" ++ n)) words) first &&
  forallb (fun e => String.eqb e tag ||
     (none_starts ("_" ++ tag) ("_" ++ e) "" && forallb (fun n => none_clash ("_" ++ tag) ("_" ++ e) ("_" ++ n)) words)) words.

Lemma quiet_word : forall p e words l, none_starts p e "" = true ->
  forallb (fun n => none_clash p e ("_" ++ n)) words = true -> (forall x, In x l -> In x words) ->
  py_replace p "" (e ++ trail l) = e ++ py_replace p "" (trail l).
Proof.
  intros p e words l S C I. apply replace_nomatch. destruct l as [|n l]; [exact S|].
  cbn [trail]. rewrite <- app_assoc_s. apply none_clash_starts.
  rewrite forallb_forall in C. apply C. apply I. left. reflexivity.
Qed.

Lemma remove_tag : forall tag first words e l, removable tag first words = true ->
  In e first -> (forall x, In x l -> In x words) ->
  py_replace ("_" ++ tag) "" (String.concat "_" (e :: l)) =
  String.concat "_" (e :: filter (fun x => negb (String.eqb x tag)) l).
Proof.
  intros tag first words e l R E I. unfold removable in R. apply andb_true_iff in R. destruct R as [R1 R2].
  rewrite forallb_forall in R1, R2. rewrite !join_trail.
  pose proof (R1 e E) as RE. apply andb_true_iff in RE. destruct RE as [S C].
  rewrite (quiet_word _ _ words) by assumption. f_equal. clear e E S C.
  induction l as [|x l IH]; [reflexivity|]. cbn [filter].
  assert (In x words) as X by (apply I; left; reflexivity).
  assert (forall y, In y l -> In y words) as I' by (intros; apply I; right; assumption).
  destruct (String.eqb_spec x tag) as [->|N]; cbn [negb].
  - cbn [trail]. rewrite <- app_assoc_s. rewrite replace_match by discriminate. apply IH. exact I'.
  - pose proof (R2 x X) as RX. apply orb_true_iff in RX. destruct RX as [RX|RX]; [apply String.eqb_eq in RX; congruence|].
    apply andb_true_iff in RX. destruct RX as [S C]. cbn [trail]. rewrite <- !app_assoc_s.
    rewrite (quiet_word _ _ words) by assumption. rewrite IH by exact I'. reflexivity.
Qed.

(** Replacing inside joined words, for a text without the separator. *)
Lemma replace_words : forall old new l, lacks "_"%char old -> old <> "" ->
  py_replace old new (String.concat "_" l) = String.concat "_" (map (py_replace old new) l).
Proof.
  intros old new l L N. destruct l as [|e l]; [reflexivity|]. cbn [map]. rewrite !join_trail.
  revert e. induction l as [|x l IH]; intro e; [cbn; rewrite !app_nil_s; reflexivity|].
  cbn [trail map]. cbn [append]. rewrite replace_sep by assumption. rewrite IH. reflexivity.
Qed.

Example replace_case : py_replace "oRLO1" "oRLO1-contact" "ZAMS_oRLO1-reverse_oRLO1" = "ZAMS_oRLO1-contact-reverse_oRLO1-contact"
  /\ py_replace "aa" "b" "aaaaa" = "bba".
Proof. vm_compute. split; reflexivity. Qed.
