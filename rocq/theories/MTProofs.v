(** Proofs for mass-transfer case histories (C13). *)
From Coq Require Import String List Bool ZArith Lia Ascii.
From Verif Require Import PyBase PyList PyNum PyStr MTModel MTSpec.
Import ListNotations.

Lemma cval_eqb_spec : forall a b, reflect (a = b) (cval_eqb a b).
Proof.
  intros [x|x] [y|y]; cbn; try (constructor; congruence).
  - destruct (Z.eqb_spec x y); constructor; congruence.
  - destruct (String.eqb_spec x y); constructor; congruence.
Qed.

(** ** The numeric summary *)

Lemma changes_spec : forall l prev, exists n rest,
  l = repeat prev n ++ rest /\ stutters (changes prev l) rest
  /\ no_repeats (prev :: changes prev l).
Proof.
  induction l as [|c l IH]; intro prev.
  - exists 0, []. split; [reflexivity|]. split; [constructor|].
    intros [|[|i]] x H; cbn in *; congruence.
  - cbn [changes]. destruct (cval_eqb_spec c prev) as [->|N].
    + destruct (IH prev) as (n & rest & -> & St & R).
      exists (S n), rest. auto.
    + destruct (IH c) as (n & rest & E & St & R).
      exists 0, (c :: l). split; [reflexivity|]. split.
      * rewrite E at 2. change (c :: repeat c n ++ rest) with (repeat c (Datatypes.S n) ++ rest).
        constructor. exact St.
      * intros [|i] x H; [cbn in *; congruence|]. exact (R i x H).
Qed.

Lemma without_filter : forall z l, without z l = filter (fun c => negb (cval_eqb c (CI z))) l.
Proof. reflexivity. Qed.

Lemma filter_all : forall A (f : A -> bool) l, (forall x, In x l -> f x = true) -> filter f l = l.
Proof.
  induction l as [|x l IH]; intro H; [reflexivity|].
  cbn. rewrite (H x) by (left; reflexivity). f_equal. apply IH. intros; apply H; right; assumption.
Qed.

Lemma filter_filter : forall A (f g : A -> bool) l,
  filter f (filter g l) = filter (fun x => g x && f x) l.
Proof.
  induction l as [|x l IH]; [reflexivity|]. cbn. destruct (g x); cbn; rewrite IH; reflexivity.
Qed.

Lemma in_without : forall z c l, In c (without z l) <-> In c l /\ c <> CI z.
Proof.
  intros. unfold without. rewrite filter_In, negb_true_iff.
  destruct (cval_eqb_spec c (CI z)); intuition congruence.
Qed.

Definition keep_case (c : cval) : bool :=
  negb (cval_eqb c (CI 9)) && negb (cval_eqb c (CI 0)).

Lemma keep_case_false : forall c, keep_case c = false <-> c = CI 9 \/ c = CI 0.
Proof.
  intro c. unfold keep_case.
  destruct (cval_eqb_spec c (CI 9)), (cval_eqb_spec c (CI 0)); cbn; intuition congruence.
Qed.

Lemma summarise_spec : forall cases, cases <> [] -> is_summary (CI 9) (CI 0) cases (summarise cases).
Proof.
  intros cases NE. unfold is_summary.
  set (front := if inb cval_eqb (CI 9) cases then [CI 9] else []).
  assert (F1 : In (CI 9) cases -> front = [CI 9]).
  { unfold front. destruct (inb_spec cval_eqb_spec (CI 9) cases); tauto. }
  assert (F2 : ~ In (CI 9) cases -> front = []).
  { unfold front. destruct (inb_spec cval_eqb_spec (CI 9) cases); tauto. }
  set (kept := filter keep_case cases).
  set (c1 := if inb cval_eqb (CI 9) cases then without 9 cases else cases).
  assert (C1 : c1 = filter (fun c => negb (cval_eqb c (CI 9))) cases).
  { unfold c1. destruct (inb_spec cval_eqb_spec (CI 9) cases) as [|N]; [reflexivity|].
    symmetry. apply filter_all. intros x H. rewrite negb_true_iff.
    destruct (cval_eqb_spec x (CI 9)); congruence. }
  set (has0 := inb cval_eqb (CI 0) c1).
  set (c2 := if has0 then without 0 c1 else c1).
  assert (H0 : has0 = true <-> In (CI 0) cases).
  { unfold has0. destruct (inb_spec cval_eqb_spec (CI 0) c1) as [I|N]; rewrite C1 in *.
    - apply filter_In in I. tauto.
    - split; [discriminate|]. intro I. exfalso. apply N. apply filter_In. split; [exact I|reflexivity]. }
  assert (C2 : c2 = kept).
  { unfold c2, kept. transitivity (without 0 c1).
    - destruct has0 eqn:E; [reflexivity|]. symmetry. apply filter_all. intros x H.
      rewrite negb_true_iff. destruct (cval_eqb_spec x (CI 0)) as [->|]; [|reflexivity].
      unfold has0 in E. destruct (inb_spec cval_eqb_spec (CI 0) c1); congruence.
    - rewrite C1. unfold without. rewrite filter_filter. reflexivity. }
  assert (S : summarise cases = front ++ match kept with
              | [] => if has0 then [CI 0] else []
              | c :: l => c :: changes c l end).
  { unfold summarise. fold front. fold c1. change MT_CASE_UNDETERMINED with 9%Z.
    change MT_CASE_NO_RLO with 0%Z. fold c1. fold has0. fold c2. rewrite C2.
    destruct (inb cval_eqb (CI 9) cases && (length c1 =? 0)) eqn:E.
    - apply andb_true_iff in E. destruct E as [E1 E2]. apply Nat.eqb_eq in E2.
      destruct c1 as [|] eqn:Ec1; [|discriminate]. fold front.
      assert (kept = []) as ->. { rewrite <- C2. unfold c2, has0. reflexivity. }
      unfold has0. cbn. rewrite app_nil_r. unfold front. reflexivity.
    - fold front. destruct kept; reflexivity. }
  exists front, (match kept with [] => if has0 then [CI 0] else [] | c :: l => c :: changes c l end), kept.
  split; [exact S|]. split; [exact F1|]. split; [exact F2|]. split; [|split].
  - exists keep_case. split; [apply keep_case_false|reflexivity].
  - intros ->. split; intro H.
    + apply H0 in H. rewrite H. reflexivity.
    + destruct has0; [tauto|reflexivity].
  - intro NK. destruct kept as [|c l]; [congruence|].
    destruct (changes_spec l c) as (n & rest & E & St & R). split; [|exact R].
    rewrite E at 2. change (c :: repeat c n ++ rest) with (repeat c (Datatypes.S n) ++ rest).
    constructor. exact St.
Qed.

Lemma numeric_spec : forall z l, exists out,
  cumulative_mass_transfer_numeric (CI z :: l) = Ok out
  /\ is_summary (CI 9) (CI 0) (CI z :: l) out.
Proof.
  intros. eexists. split; [reflexivity|]. apply summarise_spec. discriminate.
Qed.

(** The specification determines the summary. *)
Lemma no_repeats_tail : forall A (x : A) l, no_repeats (x :: l) -> no_repeats l.
Proof. intros A x l H i y E. exact (H (S i) y E). Qed.

Lemma repeat_split : forall A (x : A) n m a b,
  repeat x n ++ a = repeat x m ++ b ->
  (forall y t, a = y :: t -> y <> x) -> (forall y t, b = y :: t -> y <> x) -> a = b.
Proof.
  induction n as [|n IH]; intros [|m] a b E Ha Hb; cbn in *; try assumption.
  - exfalso. exact (Ha _ _ E eq_refl).
  - exfalso. exact (Hb _ _ (eq_sym E) eq_refl).
  - injection E as E. exact (IH _ _ _ E Ha Hb).
Qed.

Lemma stutters_head : forall A (s : list A) l y t, stutters s l -> l = y :: t -> exists r, s = y :: r.
Proof.
  intros A s l y t H E. destruct H; [discriminate|]. cbn in E. injection E as -> _.
  eexists. reflexivity.
Qed.

Lemma stutters_unique : forall A (s1 : list A) l, stutters s1 l -> no_repeats s1 ->
  forall s2, stutters s2 l -> no_repeats s2 -> s1 = s2.
Proof.
  intros A s1 l H. induction H as [|x n s1 l1 H1 IH]; intros N1 s2 H2 N2.
  - inversion H2; reflexivity.
  - remember (repeat x (S n) ++ l1) as l eqn:El.
    destruct H2 as [|y m s2' l2 H2']; [discriminate|].
    assert (y = x) as -> by (cbn in El; congruence).
    assert (l1 = l2) as <-.
    { assert (R : repeat x m ++ l2 = repeat x n ++ l1) by (cbn in El; congruence).
      symmetry. eapply repeat_split; [exact R| |].
      - intros y t -> ->. destruct (stutters_head _ _ _ _ _ H2' eq_refl) as [r ->].
        exact (N2 0 x eq_refl eq_refl).
      - intros y t -> ->. destruct (stutters_head _ _ _ _ _ H1 eq_refl) as [r ->].
        exact (N1 0 x eq_refl eq_refl). }
    f_equal. apply IH; [exact (no_repeats_tail _ _ _ N1)|assumption|exact (no_repeats_tail _ _ _ N2)].
Qed.

Lemma is_summary_unique : forall A (nine zero : A) cases a b,
  (forall x y : A, {x = y} + {x <> y}) ->
  is_summary nine zero cases a -> is_summary nine zero cases b -> a = b.
Proof.
  intros A nine zero cases a b dec
    (f1 & c1 & k1 & -> & F1 & F1' & (keep1 & K1 & E1) & Z1 & S1)
    (f2 & c2 & k2 & -> & F2 & F2' & (keep2 & K2 & E2) & Z2 & S2).
  assert (f1 = f2) as <-.
  { destruct (in_dec dec nine cases) as [I|I].
    - rewrite F1, F2; auto.
    - rewrite F1', F2'; auto. }
  assert (k1 = k2) as <-.
  { subst. apply filter_ext. intro x.
    destruct (keep1 x) eqn:X, (keep2 x) eqn:Y; try reflexivity.
    - apply K2 in Y. apply K1 in Y. congruence.
    - apply K1 in X. apply K2 in X. congruence. }
  f_equal. destruct k1 as [|c l].
  - destruct (Z1 eq_refl) as [A1 A2], (Z2 eq_refl) as [B1 B2].
    destruct (in_dec dec zero cases) as [I|I].
    + rewrite A1, B1; auto.
    + rewrite A2, B2; auto.
  - destruct (S1 ltac:(discriminate)) as [U1 V1], (S2 ltac:(discriminate)) as [U2 V2].
    eapply stutters_unique; eassumption.
Qed.

(** Strings are converted first; an unknown name raises KeyError. *)
Lemma collect_map_ok : forall A B (f : A -> result B) (g : A -> B) l,
  (forall x, In x l -> f x = Ok (g x)) -> collect (map f l) = Ok (map g l).
Proof.
  induction l as [|x l IH]; intro H; [reflexivity|].
  cbn. rewrite (H x) by (left; reflexivity). cbn. rewrite IH; [reflexivity|].
  intros; apply H; right; assumption.
Qed.

Lemma collect_raises : forall A (l : list (result A)) e,
  (forall x, In x l -> (exists a, x = Ok a) \/ x = Raise e) ->
  In (Raise e) l -> collect l = Raise e.
Proof.
  induction l as [|x l IH]; intros e H I; [destruct I|].
  cbn. destruct (H x (or_introl eq_refl)) as [[a ->]| ->]; [|reflexivity].
  destruct I as [I|I]; [discriminate|]. cbn.
  rewrite (IH e); [reflexivity| |exact I]. intros; apply H; right; assumption.
Qed.

Definition code_of (n : string) : option Z := dget String.eqb MT_STR_TO_CASE n.

Lemma numeric_strings_ok : forall names codes,
  map code_of names = map Some codes -> names <> [] ->
  cumulative_mass_transfer_numeric (map CS names)
  = cumulative_mass_transfer_numeric (map CI codes).
Proof.
  intros names codes E NE.
  assert (C : collect (map str_to_case (map CS names)) = Ok (map CI codes)).
  { clear NE. revert codes E. induction names as [|n names IH]; intros [|c codes] E;
      try discriminate; [reflexivity|].
    cbn [map] in E. injection E as E1 E2. cbn [map collect]. unfold str_to_case at 1.
    unfold code_of in E1. rewrite E1. cbn [rbind]. rewrite (IH _ E2). reflexivity. }
  destruct names as [|n names]; [congruence|]. destruct codes as [|c codes]; [discriminate|].
  unfold cumulative_mass_transfer_numeric at 1.
  change (map CS (n :: names)) with (CS n :: map CS names) in *. cbv iota. rewrite C. reflexivity.
Qed.

Lemma numeric_strings_unknown : forall names n,
  In n names -> code_of n = None ->
  cumulative_mass_transfer_numeric (map CS names) = Raise KeyError.
Proof.
  intros names n I U.
  assert (C : collect (map str_to_case (map CS names)) = Raise KeyError).
  { apply collect_raises.
    - intros x H. apply in_map_iff in H. destruct H as (c & <- & H).
      apply in_map_iff in H. destruct H as (m & <- & _). unfold str_to_case.
      destruct (dget _ _ m); [left; eauto | right; reflexivity].
    - apply in_map_iff. exists (CS n). split; [|apply in_map; exact I].
      unfold code_of in U. unfold str_to_case. rewrite U. reflexivity. }
  destruct names as [|m names]; [destruct I|].
  unfold cumulative_mass_transfer_numeric.
  change (map CS (m :: names)) with (CS m :: map CS names) in *. cbv iota. rewrite C. reflexivity.
Qed.

(** ** The text form *)
Local Open Scope string_scope.

Lemma str_app_nil : forall s, s ++ "" = s.
Proof. induction s as [|c s IH]; [reflexivity|]. cbn. rewrite IH. reflexivity. Qed.
Lemma str_app_assoc : forall a b c, (a ++ b) ++ c = a ++ (b ++ c).
Proof. induction a as [|x a IH]; intros; [reflexivity|]. cbn. rewrite IH. reflexivity. Qed.

Definition word (c : Z) : string :=
  match dget Z.eqb flag_words c with Some w => w | None => "" end.

Lemma known_in : forall c, In c (map fst flag_words) ->
  In c [1;2;3;4;5;6;8;10;11;12;13;14;15;16;18;19]%Z.
Proof. intros c H. exact H. Qed.

Ltac each_known H :=
  cbn in H; repeat (destruct H as [<-|H]; [|]); [..|destruct H].

Lemma case_word_known : forall c, In c (map fst flag_words) ->
  case_word c = Some (word c) /\ (c =? 9)%Z = false /\ (c =? 0)%Z = false.
Proof. intros c H. each_known H; repeat split. Qed.

Fixpoint tail_words (l : list Z) : string :=
  match l with [] => "" | c :: l' => "/" ++ word c ++ tail_words l' end.

Lemma loop_tail : forall l res w, Forall (fun c => In c (map fst flag_words)) l ->
  mt_string_loop l res true w = (res ++ tail_words l, w).
Proof.
  induction l as [|c l IH]; intros res w H; cbn [mt_string_loop tail_words].
  - rewrite str_app_nil. reflexivity.
  - inversion H; subst. destruct (case_word_known c) as (E1 & E2 & E3); [assumption|].
    unfold MT_CASE_UNDETERMINED, MT_CASE_NO_RLO. rewrite E2, E3, E1, IH by assumption.
    rewrite !str_app_assoc. reflexivity.
Qed.

Lemma loop_start : forall c l res w, Forall (fun c => In c (map fst flag_words)) (c :: l) ->
  mt_string_loop (c :: l) res false w = (res ++ "case_" ++ word c ++ tail_words l, w).
Proof.
  intros c l res w H. inversion H; subst. cbn [mt_string_loop].
  destruct (case_word_known c) as (E1 & E2 & E3); [assumption|].
  unfold MT_CASE_UNDETERMINED, MT_CASE_NO_RLO. rewrite E2, E3, E1, loop_tail by assumption.
  rewrite !str_app_assoc. reflexivity.
Qed.

Lemma concat_tail : forall c l,
  String.concat "/" (map word (c :: l)) = word c ++ tail_words l.
Proof.
  intros c l. revert c. induction l as [|d l IH]; intro c.
  - cbn. rewrite str_app_nil. reflexivity.
  - change (map word (c :: d :: l)) with (word c :: map word (d :: l)).
    change (String.concat "/" (word c :: map word (d :: l)))
      with (word c ++ "/" ++ String.concat "/" (map word (d :: l))).
    rewrite IH. reflexivity.
Qed.

(** How a well-formed summary is written. *)
Definition mark (q : bool) : string := if q then "?" else "".
Definition qlist (q : bool) : list Z := if q then [9%Z] else [].

Lemma string_no_rlo : forall q,
  cumulative_mass_transfer_string (qlist q ++ [0%Z]) = (mark q ++ "no_RLO", []).
Proof. intros [|]; reflexivity. Qed.

Lemma string_cases : forall q core, core <> [] ->
  Forall (fun c => In c (map fst flag_words)) core ->
  cumulative_mass_transfer_string (qlist q ++ core)
  = (mark q ++ "case_" ++ String.concat "/" (map word core), []).
Proof.
  intros q core NE H. destruct core as [|c l]; [congruence|]. rewrite concat_tail.
  destruct q; unfold cumulative_mass_transfer_string, qlist, mark; cbn [List.app].
  - change (mt_string_loop (9 :: c :: l)%Z "" false []) with (mt_string_loop (c :: l) "?" false []).
    rewrite loop_start by assumption. reflexivity.
  - rewrite loop_start by assumption. reflexivity.
Qed.

(** Words contain no "/" and are pairwise different. *)
Fixpoint no_slash (s : string) : bool :=
  match s with "" => true | String c s' => negb (Ascii.eqb c "/") && no_slash s' end.

Lemma word_no_slash : forall c, In c (map fst flag_words) -> no_slash (word c) = true.
Proof. intros c H. each_known H; reflexivity. Qed.

Lemma word_inj : forall a b, In a (map fst flag_words) -> In b (map fst flag_words) ->
  word a = word b -> a = b.
Proof.
  assert (C : forallb (fun a => forallb (fun b =>
     negb (String.eqb (word a) (word b)) || (a =? b)%Z) (map fst flag_words)) (map fst flag_words) = true)
    by reflexivity.
  intros a b Ha Hb E. rewrite forallb_forall in C. specialize (C a Ha).
  rewrite forallb_forall in C. specialize (C b Hb). rewrite E, String.eqb_refl in C. cbn in C.
  apply Z.eqb_eq. exact C.
Qed.

Lemma split_slash : forall a b x y, no_slash a = true -> no_slash b = true ->
  (x = "" \/ exists x', x = String "/" x') -> (y = "" \/ exists y', y = String "/" y') ->
  a ++ x = b ++ y -> a = b /\ x = y.
Proof.
  induction a as [|c a IH]; intros b x y Ha Hb Hx Hy E.
  - destruct b as [|d b]; [split; [reflexivity|exact E]|].
    cbn in E, Hb. destruct Hx as [->|[x' ->]]; [discriminate|]. injection E as <- _.
    discriminate.
  - destruct b as [|d b].
    + cbn in E, Ha. destruct Hy as [->|[y' ->]]; [discriminate|]. injection E as -> _. discriminate.
    + cbn in E, Ha, Hb. apply andb_true_iff in Ha, Hb. injection E as <- E.
      destruct (IH b x y) as [-> ->]; tauto.
Qed.

Lemma tail_shape : forall l, tail_words l = "" \/ exists x, tail_words l = String "/" x.
Proof. intros [|c l]; [left; reflexivity|right; eexists; reflexivity]. Qed.

Lemma tail_inj : forall a b, Forall (fun c => In c (map fst flag_words)) a ->
  Forall (fun c => In c (map fst flag_words)) b -> tail_words a = tail_words b -> a = b.
Proof.
  induction a as [|x a IH]; intros [|y b] Ha Hb E; try (cbn in E; discriminate); [reflexivity|].
  inversion Ha; inversion Hb; subst. cbn in E. injection E as E.
  apply split_slash in E; try (apply word_no_slash; assumption); try apply tail_shape.
  destruct E as [E1 E2]. apply word_inj in E1; [|assumption..]. rewrite E1, (IH b); auto.
Qed.

Inductive shape : list Z -> bool -> option (list Z) -> Prop :=
| sh_none : forall q, shape (qlist q ++ [0%Z]) q None
| sh_cases : forall q core, core <> [] \/ q = true ->
    Forall (fun c => In c (map fst flag_words)) core -> shape (qlist q ++ core) q (Some core).

Lemma wf_shape : forall l, wf_summary l -> l <> [] -> exists q r, shape l q r.
Proof.
  intros l H NE. destruct H as [q Hq|q core Hq Hc].
  - destruct Hq as [->| ->]; [exists false|exists true]; exists None;
    [apply (sh_none false)|apply (sh_none true)].
  - destruct Hq as [->| ->].
    + exists false, (Some core). apply (sh_cases false); [left; exact NE|exact Hc].
    + exists true, (Some core). apply (sh_cases true); [right; reflexivity|exact Hc].
Qed.

Definition text (q : bool) (r : option (list Z)) : string :=
  mark q ++ match r with
            | None => "no_RLO"
            | Some [] => ""
            | Some core => "case_" ++ String.concat "/" (map word core)
            end.

Lemma shape_text : forall l q r, shape l q r -> cumulative_mass_transfer_string l = (text q r, []).
Proof.
  intros l q r H. destruct H as [q|q core Hc H].
  - apply string_no_rlo.
  - destruct core as [|c l].
    + destruct Hc as [| ->]; [congruence|]. reflexivity.
    + rewrite string_cases; [reflexivity|discriminate|exact H].
Qed.

Lemma string_injective : forall a b, wf_summary a -> wf_summary b -> a <> [] -> b <> [] ->
  fst (cumulative_mass_transfer_string a) = fst (cumulative_mass_transfer_string b) -> a = b.
Proof.
  intros a b Ha Hb Na Nb E.
  destruct (wf_shape a Ha Na) as (qa & ra & Sa), (wf_shape b Hb Nb) as (qb & rb & Sb).
  rewrite (shape_text _ _ _ Sa), (shape_text _ _ _ Sb) in E. cbn [fst] in E. unfold text in E.
  assert (Q : forall q, (exists x, mark q = String "?" x) \/ mark q = "") by
    (intros [|]; [left; eexists; reflexivity|right; reflexivity]).
  assert (qa = qb) as <-.
  { destruct qa, qb; try reflexivity; exfalso; cbn in E.
    - destruct rb as [[|c rb]|]; cbn in E; discriminate.
    - destruct ra as [[|c ra]|]; cbn in E; discriminate. }
  assert (E' : match ra with None => "no_RLO" | Some [] => ""
               | Some core => "case_" ++ String.concat "/" (map word core) end
             = match rb with None => "no_RLO" | Some [] => ""
               | Some core => "case_" ++ String.concat "/" (map word core) end).
  { destruct qa; cbn in E; [injection E as E|]; exact E. }
  destruct Sa as [qa|qa ca Ca Fa]; inversion Sb as [qb|qb cb Cb Fb]; subst; try reflexivity.
  - destruct cb; discriminate.
  - destruct ca; discriminate.
  - destruct ca as [|x ca], cb as [|y cb]; try discriminate; [reflexivity|].
    rewrite !concat_tail in E'. cbn in E'. injection E' as E'.
    inversion Fa; inversion Fb; subst.
    apply split_slash in E'; try (apply word_no_slash; assumption); try apply tail_shape.
    destruct E' as [E1 E2]. apply word_inj in E1; [|assumption..].
    apply tail_inj in E2; [|assumption..]. subst. reflexivity.
Qed.

(** Warnings are issued exactly for the codes that have no word. *)
Definition nameless (c : Z) : bool :=
  negb (inb Z.eqb c (9 :: 0 :: map fst flag_words))%Z.

Lemma case_word_none : forall c, case_word c = None -> (c =? 9)%Z = false -> (c =? 0)%Z = false ->
  nameless c = true.
Proof.
  intros c H N9 N0. unfold nameless. apply negb_true_iff.
  destruct (inb_spec Z.eqb_spec c (9 :: 0 :: map fst flag_words)%Z) as [I|]; [|reflexivity].
  exfalso. destruct I as [<-|[<-|I]]; [discriminate..|].
  destruct (case_word_known c I) as [E _]. congruence.
Qed.

Lemma case_word_some : forall c w, case_word c = Some w -> In c (9 :: 0 :: map fst flag_words)%Z.
Proof.
  intros c w H. unfold case_word in H.
  destruct (dget Z.eqb MT_CASE_TO_STR c) eqn:E.
  - apply (dget_Some_in Z.eqb_spec) in E. apply (in_map fst) in E. clear H.
    cbn in E |- *. cbn [fst] in E. intuition.
  - destruct (dget Z.eqb MT_CASE_TO_STR (c - 10)%Z) eqn:E2; [|discriminate].
    apply (dget_Some_in Z.eqb_spec) in E2. apply (in_map fst) in E2. clear H E.
    cbn [map fst MT_CASE_TO_STR In] in E2.
    unfold MT_CASE_NO_RLO, MT_CASE_A, MT_CASE_B, MT_CASE_C, MT_CASE_BA, MT_CASE_BB, MT_CASE_BC,
      MT_CASE_NONBURNING, MT_CASE_UNDETERMINED in E2.
    cbn [map fst flag_words In]. lia.
Qed.

Lemma string_warnings : forall l,
  snd (cumulative_mass_transfer_string l) = filter nameless l.
Proof.
  assert (G : forall l r a w, snd (mt_string_loop l r a w) = (w ++ filter nameless l)%list).
  { induction l as [|c l IH]; intros r a w; cbn [mt_string_loop filter].
    - rewrite app_nil_r. reflexivity.
    - unfold MT_CASE_UNDETERMINED, MT_CASE_NO_RLO.
      destruct (c =? 9)%Z eqn:E9.
      { apply Z.eqb_eq in E9. subst. cbn. apply IH. }
      destruct (c =? 0)%Z eqn:E0.
      { apply Z.eqb_eq in E0. subst. cbn. apply IH. }
      destruct (case_word c) as [w'|] eqn:E.
      + rewrite IH. apply case_word_some in E. unfold nameless at 2.
        destruct (inb_spec Z.eqb_spec c (9 :: 0 :: map fst flag_words)%Z); [reflexivity|tauto].
      + rewrite (case_word_none c E E9 E0), IH, <- app_assoc. reflexivity. }
  intros [|c l]; [reflexivity|]. unfold cumulative_mass_transfer_string. rewrite G. reflexivity.
Qed.

(** ** Shifting cases *)
Local Close Scope string_scope.
Local Open Scope Z_scope.

Lemma fold_max_app : forall a b z, fold_right Z.max z (a ++ b) = fold_right Z.max (fold_right Z.max z b) a.
Proof. intros. apply fold_right_app. Qed.

Lemma fold_max_base : forall l a b, fold_right Z.max (Z.max a b) l = Z.max a (fold_right Z.max b l).
Proof. induction l as [|x l IH]; intros; cbn; [reflexivity|]. rewrite IH. lia. Qed.

Lemma shift_loop_spec : forall l m1 m2,
  length (fst (shift_loop l m1 m2)) = length l /\
  forall i c, nth_error l i = Some c ->
    nth_error (fst (shift_loop l m1 m2)) i
    = Some (match donor c with
            | 1%nat => fold_right Z.max m1 (filter (fun c => donor c =? 1)%nat (firstn (S i) l))
            | 2%nat => fold_right Z.max m2 (filter (fun c => donor c =? 2)%nat (firstn (S i) l))
            | _ => c
            end).
Proof.
  induction l as [|x l IH]; intros m1 m2.
  - split; [reflexivity|]. intros [|i] c H; discriminate.
  - cbn [shift_loop]. destruct (x <=? 9) eqn:E1; [|destruct (x <=? 19) eqn:E2].
    + set (m1' := if x >? m1 then x else m1).
      destruct (IH m1' m2) as [L N]. destruct (shift_loop l m1' m2) as [r w]. cbn [fst] in *.
      assert (M : m1' = Z.max x m1) by (unfold m1'; destruct (x >? m1) eqn:G; lia).
      split; [cbn; congruence|]. intros [|i] c H.
      * injection H as <-. cbn. unfold donor. rewrite E1. cbn.
        f_equal. destruct (x <? m1) eqn:G; lia.
      * cbn [nth_error] in *. rewrite (N i c H). f_equal.
        change (firstn (S (S i)) (x :: l)) with (x :: firstn (S i) l). cbn [filter].
        assert (DX : donor x = 1%nat) by (unfold donor; rewrite E1; reflexivity).
        rewrite DX. cbn [Nat.eqb].
        destruct (donor c) as [|[|[|]]]; try reflexivity.
        rewrite M. cbn [fold_right]. rewrite fold_max_base. reflexivity.
    + set (m2' := if x >? m2 then x else m2).
      destruct (IH m1 m2') as [L N]. destruct (shift_loop l m1 m2') as [r w]. cbn [fst] in *.
      assert (M : m2' = Z.max x m2) by (unfold m2'; destruct (x >? m2) eqn:G; lia).
      split; [cbn; congruence|]. intros [|i] c H.
      * injection H as <-. cbn. unfold donor. rewrite E1, E2. cbn.
        f_equal. destruct (x <? m2) eqn:G; lia.
      * cbn [nth_error] in *. rewrite (N i c H). f_equal.
        change (firstn (S (S i)) (x :: l)) with (x :: firstn (S i) l). cbn [filter].
        assert (DX : donor x = 2%nat) by (unfold donor; rewrite E1, E2; reflexivity).
        rewrite DX. cbn [Nat.eqb].
        destruct (donor c) as [|[|[|]]]; try reflexivity.
        rewrite M. cbn [fold_right]. rewrite fold_max_base. reflexivity.
    + destruct (IH m1 m2) as [L N]. destruct (shift_loop l m1 m2) as [r w]. cbn [fst] in *.
      split; [cbn; congruence|]. intros [|i] c H.
      * injection H as <-. cbn. unfold donor. rewrite E1, E2. reflexivity.
      * cbn [nth_error] in *. rewrite (N i c H). f_equal.
        change (firstn (S (S i)) (x :: l)) with (x :: firstn (S i) l). cbn [filter].
        assert (DX : donor x = 3%nat) by (unfold donor; rewrite E1, E2; reflexivity).
        rewrite DX. cbn [Nat.eqb]. reflexivity.
Qed.

Lemma donor_range : forall c, donor c = 1%nat \/ donor c = 2%nat \/ donor c = 3%nat.
Proof. intro c. unfold donor. destruct (c <=? 9), (c <=? 19); tauto. Qed.

Lemma corrected_shifted : forall l, shifted l (fst (corrected_cases true l)).
Proof.
  intro l. unfold shifted, corrected_cases. destruct (shift_loop_spec l 0 10) as [L N].
  split; [exact L|]. intros i c H. rewrite (N i c H). f_equal.
  unfold latest_case, base_case.
  destruct (donor_range c) as [E|[E|E]]; rewrite E; reflexivity.
Qed.

Lemma latest_ge_base : forall d l, base_case d <= latest_case d l.
Proof.
  intros d l. unfold latest_case. induction (filter _ l) as [|x r IH]; cbn [fold_right]; lia.
Qed.

Lemma latest_mono : forall d l i j, (i <= j)%nat ->
  latest_case d (firstn i l) <= latest_case d (firstn j l).
Proof.
  intros d l i j H. unfold latest_case.
  replace (firstn i l) with (firstn i (firstn j l))
    by (rewrite firstn_firstn; f_equal; lia).
  rewrite <- (firstn_skipn i (firstn j l)) at 2. rewrite filter_app, fold_max_app.
  set (A := filter _ (firstn i (firstn j l))). set (B := filter _ (skipn i _)).
  assert (G : base_case d <= fold_right Z.max (base_case d) B).
  { induction B as [|x r IH]; cbn [fold_right]; lia. }
  induction A as [|x r IH]; cbn [fold_right]; [exact G|]. lia.
Qed.

Lemma latest_donor : forall d l, d = 1%nat \/ d = 2%nat -> donor (latest_case d l) = d.
Proof.
  intros d l D. unfold latest_case.
  assert (F : forall c, In c (filter (fun c => donor c =? d)%nat l) -> donor c = d).
  { intros c H. apply filter_In in H. apply Nat.eqb_eq. tauto. }
  induction (filter _ l) as [|x r IH]; cbn [fold_right].
  - destruct D as [->| ->]; reflexivity.
  - assert (X := F x (or_introl eq_refl)). specialize (IH (fun c H => F c (or_intror H))).
    destruct (Z.max_spec x (fold_right Z.max (base_case d) r)) as [[_ ->]|[_ ->]]; assumption.
Qed.

(** Once shifted, the codes of each donor never decrease. *)
Lemma shifted_monotone : forall l out, shifted l out ->
  forall i j a b, (i <= j)%nat -> nth_error out i = Some a -> nth_error out j = Some b ->
  donor a = donor b -> donor a <> 3%nat -> a <= b.
Proof.
  intros l out [L N] i j a b IJ A B D N3.
  assert (exists c, nth_error l i = Some c) as [c C].
  { destruct (nth_error l i) eqn:E; [eauto|]. apply nth_error_None in E.
    assert (nth_error out i <> None) by congruence. apply nth_error_Some in H. lia. }
  assert (exists c, nth_error l j = Some c) as [c' C'].
  { destruct (nth_error l j) eqn:E; [eauto|]. apply nth_error_None in E.
    assert (nth_error out j <> None) by congruence. apply nth_error_Some in H. lia. }
  rewrite (N i c C) in A. rewrite (N j c' C') in B.
  assert (DC : forall c l, donor (if (donor c =? 3)%nat then c else latest_case (donor c) l) = donor c).
  { intros c0 l0. destruct (donor_range c0) as [E|[E|E]]; rewrite E; cbn [Nat.eqb].
    - apply latest_donor; tauto.
    - apply latest_donor; tauto.
    - exact E. }
  injection A as <-. injection B as <-. rewrite !DC in D. rewrite DC in N3.
  rewrite <- D. destruct (donor c =? 3)%nat eqn:E3; [apply Nat.eqb_eq in E3; congruence|].
  apply (latest_mono (donor c) l (S i) (S j)). lia.
Qed.

(** Sequences already in order are left alone. *)
Lemma latest_le : forall d l m, base_case d <= m ->
  (forall c, In c l -> donor c = d -> c <= m) -> latest_case d l <= m.
Proof.
  intros d l m B H. unfold latest_case.
  assert (F : forall c, In c (filter (fun c => donor c =? d)%nat l) -> c <= m).
  { intros c I. apply filter_In in I. destruct I as [I E]. apply Nat.eqb_eq in E. auto. }
  induction (filter _ l) as [|x r IH]; cbn [fold_right]; [exact B|].
  assert (X := F x (or_introl eq_refl)). specialize (IH (fun c H => F c (or_intror H))). lia.
Qed.

Lemma latest_ge : forall d l c, In c l -> donor c = d -> c <= latest_case d l.
Proof.
  intros d l c I E. unfold latest_case.
  assert (F : In c (filter (fun c => donor c =? d)%nat l)).
  { apply filter_In. split; [exact I|]. apply Nat.eqb_eq. exact E. }
  induction (filter _ l) as [|x r IH]; [destruct F|]. cbn [fold_right].
  destruct F as [->|F]; [lia|]. specialize (IH F). lia.
Qed.

Lemma ordered_unchanged : forall l,
  (forall c, In c l -> 0 <= c) ->
  (forall i j a b, (i <= j)%nat -> nth_error l i = Some a -> nth_error l j = Some b ->
     donor a = donor b -> a <= b) ->
  fst (corrected_cases true l) = l.
Proof.
  intros l P M. destruct (corrected_shifted l) as [L N].
  apply nth_ext_error. intro i. destruct (nth_error l i) as [c|] eqn:E.
  - rewrite (N i c E). f_equal. destruct (donor c =? 3)%nat eqn:E3; [reflexivity|].
    apply Z.le_antisymm.
    + apply latest_le.
      * apply nth_error_In, P in E. unfold base_case. unfold donor in *.
        destruct (c <=? 9) eqn:A; [lia|]. destruct (c <=? 19); [lia|discriminate].
      * intros x I D. apply In_nth_error in I. destruct I as [k K].
        assert (KI : (k < S i)%nat).
        { assert (nth_error (firstn (S i) l) k <> None) as X by congruence.
          apply nth_error_Some in X. rewrite firstn_length in X. lia. }
        rewrite nth_firstn_lt in K by lia.
        apply (M k i x c); [lia|exact K|exact E|exact D].
    + apply latest_ge; [|reflexivity].
      assert (nth_error (firstn (S i) l) i = Some c) as X by (rewrite nth_firstn_lt by lia; exact E).
      apply nth_error_In in X. exact X.
  - apply nth_error_None in E. apply nth_error_None. lia.
Qed.

(** ** The flag *)
Lemma ints_map_CI : forall l, ints (map CI l) = l.
Proof. induction l as [|c l IH]; [reflexivity|]. cbn. f_equal. exact IH. Qed.
