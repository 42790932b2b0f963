(** C64: the termination flag read from MESA's terminal output. *)
From Coq Require Import String Ascii List Bool Lia.
From Verif Require Import PyBase PyStr PyStrip PyReplace TFlagModel.
Import ListNotations.
Open Scope string_scope.
Open Scope list_scope.

(** ** Specification *)
Definition contains (sub s : string) : Prop := exists a b, s = (a ++ sub ++ b)%string.
(** A line announcing a termination code, and the code. *)
Definition announces (line code : string) : Prop :=
  exists rest, (line = "termination code: " ++ rest \/ line = "Terminate: " ++ rest)%string /\ stripped rest code.
(** A line that settles the flag. *)
Definition settles (line code : string) : Prop :=
  (announces line code /\ ~ contains "min_timestep_limit" line) \/
  ((forall c, ~ announces line c) /\ contains "min_timestep_limit" line /\ contains "Reached TPAGB" line /\ code = "Reached TPAGB").

(** ** Lemmas *)
Lemma drop_length : forall n s, drop n s = substring n (String.length s - n) s.
Proof.
  induction n as [|n IH]; intros [|c s]; cbn; try reflexivity.
  - f_equal. induction s as [|d s IHs]; cbn; [reflexivity|]. f_equal. exact IHs.
  - apply IH.
Qed.
Lemma drop_app a : forall s, drop (String.length a) (a ++ s)%string = s.
Proof. induction a as [|c a IH]; intros s; cbn; [reflexivity|]. apply IH. Qed.
Lemma prefix_iff p s : prefix p s = true <-> exists r, s = (p ++ r)%string.
Proof. split; [apply prefix_exists|]. intros (r & ->). apply prefix_append. Qed.
Lemma contains_iff sub s : py_in sub s = true <-> contains sub s.
Proof. apply py_in_iff. Qed.
Lemma not_contains sub s : py_in sub s = false <-> ~ contains sub s.
Proof. rewrite <- contains_iff. destruct (py_in sub s); split; congruence. Qed.

Definition value_of (line : string) : string :=
  strip (drop (String.length (if prefix "termination code: " line then "termination code: " else "Terminate: ")) line).
Definition announced (line : string) : bool := prefix "termination code: " line || prefix "Terminate: " line.
Lemma announced_spec line c : announces line c <-> announced line = true /\ c = value_of line.
Proof.
  unfold announces, announced, value_of. split.
  - intros (rest & [->| ->] & ST); (split; [rewrite !prefix_append; try apply orb_true_r; reflexivity|]).
    + rewrite prefix_append, drop_app. apply (stripped_unique rest); [exact ST|apply strip_stripped].
    + cbn [append prefix]. destruct (ascii_dec "t" "T") as [E|_]; [discriminate|].
      change (String "T" (String "e" (String "r" (String "m" (String "i" (String "n" (String "a" (String "t" (String "e" (String ":" (String " " rest)))))))))))
        with ("Terminate: " ++ rest)%string. rewrite drop_app. apply (stripped_unique rest); [exact ST|apply strip_stripped].
  - intros [A ->]. destruct (prefix "termination code: " line) eqn:P.
    + apply prefix_iff in P as (r & ->). rewrite drop_app. exists r. split; [left; reflexivity|apply strip_stripped].
    + cbn in A. apply prefix_iff in A as (r & ->). rewrite drop_app. exists r. split; [right; reflexivity|apply strip_stripped].
Qed.
Lemma announced_false line : announced line = false <-> forall c, ~ announces line c.
Proof.
  split.
  - intros A c C. apply announced_spec in C as [C _]. congruence.
  - intros H. destruct (announced line) eqn:A; [|reflexivity]. exfalso. apply (H (value_of line)). apply announced_spec. auto.
Qed.

Lemma scan_settled : forall after code line before v, settles line v -> (forall l c, In l after -> ~ settles l c) ->
  scan code (after ++ line :: before) = v.
Proof.
  induction after as [|x after IH]; intros code line before v S N; cbn [app scan]; fold (announced line); fold (value_of line).
  - destruct S as [[A M]|(A & M & T & ->)].
    + apply announced_spec in A as [A ->]. apply not_contains in M. unfold announced, value_of in *.
      rewrite A, M. reflexivity.
    + apply announced_false in A. apply contains_iff in M, T. rewrite A, M, T. reflexivity.
  - assert (IH' : forall c, scan c (after ++ line :: before) = v) by (intros; apply IH; [exact S|]; intros l c' L; apply N; right; exact L).
    pose proof (N x) as NX. fold (announced x). fold (value_of x).
    destruct (announced x) eqn:A; cbn [negb].
    + destruct (py_in "min_timestep_limit" x) eqn:M; [apply IH'|]. exfalso. apply (NX (value_of x)); [left; reflexivity|].
      left. split; [apply announced_spec; auto|apply not_contains; exact M].
    + destruct (py_in "min_timestep_limit" x && py_in "Reached TPAGB" x) eqn:E; [|apply IH'].
      apply andb_prop in E as [E1 E2]. exfalso. apply (NX "Reached TPAGB"); [left; reflexivity|]. right.
      split; [apply announced_false; exact A|]. split; [apply contains_iff; exact E1|]. split; [apply contains_iff; exact E2|reflexivity].
Qed.
Lemma scan_skip : forall after code before, (forall l c, In l after -> ~ settles l c) -> (forall l c, In l after -> ~ announces l c) ->
  scan code (after ++ before) = scan code before.
Proof.
  induction after as [|x after IH]; intros code before N A; [reflexivity|]. cbn [app scan]. fold (announced x).
  assert (AX : announced x = false) by (apply announced_false; intros c; apply A; left; reflexivity). rewrite AX. cbn [negb].
  destruct (py_in "min_timestep_limit" x && py_in "Reached TPAGB" x) eqn:E.
  - apply andb_prop in E as [E1 E2]. exfalso. apply (N x "Reached TPAGB"); [left; reflexivity|]. right.
    split; [apply announced_false; exact AX|]. split; [apply contains_iff; exact E1|]. split; [apply contains_iff; exact E2|reflexivity].
  - apply IH; intros l c L; [apply N|apply A]; right; exact L.
Qed.
(** Lines that announce but do not settle replace the code. *)
Lemma scan_last : forall after code line before v, announces line v -> (forall l c, In l (after ++ line :: before) -> ~ settles l c) ->
  (forall l c, In l before -> ~ announces l c) -> v <> "" -> scan code (after ++ line :: before) = v.
Proof.
  induction after as [|x after IH]; intros code line before v A N B V; cbn [app scan].
  - apply announced_spec in A as [A ->]. fold (announced line). fold (value_of line). rewrite A. cbn [negb].
    destruct (py_in "min_timestep_limit" line) eqn:M.
    + rewrite <- (app_nil_r before). rewrite scan_skip; [|intros l c L; apply N; right; exact L|exact B].
      cbn [scan]. destruct (value_of line); [easy|reflexivity].
    + reflexivity.
  - fold (announced x). fold (value_of x).
    assert (IH' : forall c, scan c (after ++ line :: before) = v) by (intros; apply IH; auto; intros l c' L; apply N; right; exact L).
    destruct (announced x) eqn:AX; cbn [negb].
    + destruct (py_in "min_timestep_limit" x) eqn:M; [apply IH'|]. exfalso. apply (N x (value_of x)); [left; reflexivity|].
      left. split; [apply announced_spec; auto|apply not_contains; exact M].
    + destruct (py_in "min_timestep_limit" x && py_in "Reached TPAGB" x) eqn:E; [|apply IH'].
      apply andb_prop in E as [E1 E2]. exfalso. apply (N x "Reached TPAGB"); [left; reflexivity|]. right.
      split; [apply announced_false; exact AX|]. split; [apply contains_iff; exact E1|]. split; [apply contains_iff; exact E2|reflexivity].
Qed.

(** A text without blanks and colons cannot begin inside the announcement. *)
Fixpoint overlaps (p sub : string) : bool :=
  match p with EmptyString => false | String _ r => prefix sub p || prefix p sub || overlaps r sub end.
Lemma prefix_short : forall sub p rest, prefix sub (p ++ rest)%string = true -> prefix sub p || prefix p sub = true.
Proof.
  induction sub as [|c sub IH]; intros [|d p] rest H; try reflexivity; try (apply orb_true_r). cbn [append prefix] in *.
  destruct (ascii_dec c d) as [->|]; [|discriminate]. destruct (ascii_dec d d); [|easy]. eapply IH. exact H.
Qed.
Lemma after_prefix : forall sub p rest, overlaps p sub = false -> py_in sub (p ++ rest)%string = py_in sub rest.
Proof.
  intros sub. induction p as [|c p IH]; intros rest O; [reflexivity|]. cbn [overlaps] in O.
  apply orb_false_elim in O as [O1 O2]. specialize (IH rest O2).
  change ((String c p ++ rest)%string) with (String c (p ++ rest)%string). cbn [py_in]. fold (py_in sub). rewrite IH.
  destruct (prefix sub (String c (p ++ rest)%string)) eqn:P; [|reflexivity].
  change (String c (p ++ rest)%string) with ((String c p ++ rest)%string) in P. apply prefix_short in P. congruence.
Qed.
(** A text without blanks is not touched by stripping. *)
Lemma no_space_min c : In c (list_ascii_of_string "min_timestep_limit") -> is_space c = false.
Proof. cbn. intros H. repeat (destruct H as [<-|H]; [reflexivity|]). destruct H. Qed.
Lemma skip_blank sub : (forall c, In c (list_ascii_of_string sub) -> is_space c = false) -> sub <> "" ->
  forall a t, blank a -> py_in sub (a ++ t)%string = py_in sub t.
Proof.
  intros NS NE. induction a as [|c a IH]; intros t B; [reflexivity|].
  change ((String c a ++ t)%string) with (String c (a ++ t)%string). cbn [py_in]. fold (py_in sub).
  rewrite IH by (intros x X; apply B; right; exact X). destruct sub as [|d sub]; [easy|]. cbn [prefix].
  destruct (ascii_dec d c) as [E|]; [|reflexivity]. subst d.
  pose proof (NS c (or_introl eq_refl)). pose proof (B c (or_introl eq_refl)). congruence.
Qed.
Lemma prefix_blank : forall sub t b, (forall c, In c (list_ascii_of_string sub) -> is_space c = false) -> blank b ->
  prefix sub (t ++ b)%string = prefix sub t.
Proof.
  induction sub as [|c sub IH]; intros [|d t] b NS B; try reflexivity; cbn [append].
  - destruct b; reflexivity.
  - destruct b as [|d b]; [reflexivity|]. cbn [prefix]. destruct (ascii_dec c d) as [->|]; [|reflexivity].
    pose proof (NS d (or_introl eq_refl)). pose proof (B d (or_introl eq_refl)). congruence.
  - cbn [prefix]. destruct (ascii_dec c d); [|reflexivity]. apply IH; [|exact B]. intros x X. apply NS. right. exact X.
Qed.
Lemma skip_blank_end sub : (forall c, In c (list_ascii_of_string sub) -> is_space c = false) -> sub <> "" ->
  forall t b, blank b -> py_in sub (t ++ b)%string = py_in sub t.
Proof.
  intros NS NE. induction t as [|c t IH]; intros b B.
  - rewrite <- (str_nil_r b). change (("" ++ b ++ "")%string) with ((b ++ "")%string). rewrite skip_blank; auto.
  - change ((String c t ++ b)%string) with (String c (t ++ b)%string). cbn [py_in]. fold (py_in sub). rewrite IH by exact B.
    f_equal. apply (prefix_blank sub (String c t) b NS B).
Qed.
Lemma strip_keeps a b t : blank a -> blank b -> contains "min_timestep_limit" (a ++ t ++ b)%string -> contains "min_timestep_limit" t.
Proof.
  intros A B H. apply contains_iff in H. apply contains_iff. rewrite skip_blank in H; [|exact no_space_min|discriminate|exact A].
  rewrite skip_blank_end in H; [exact H|exact no_space_min|discriminate|exact B].
Qed.

(** ** C64 *)
(** The last line that settles the flag decides. *)
Theorem C64_settled : forall before line after v, settles line v -> (forall l c, In l after -> ~ settles l c) ->
  get_flag_from_MESA_output (Some (before ++ line :: after)) = v.
Proof.
  intros before line after v S N. unfold get_flag_from_MESA_output. rewrite rev_app_distr. cbn [rev]. rewrite <- app_assoc. cbn [app].
  apply scan_settled; [exact S|]. intros l c L. apply N. apply in_rev. exact L.
Qed.
Print Assumptions C64_settled.

(** Otherwise the first announced code is the flag (all of them concern the time step). *)
Theorem C64_timestep : forall before line after v, (forall l c, In l (before ++ line :: after) -> ~ settles l c) ->
  announces line v -> (forall l c, In l before -> ~ announces l c) ->
  get_flag_from_MESA_output (Some (before ++ line :: after)) = v /\ contains "min_timestep_limit" v.
Proof.
  intros before line after v N A B.
  assert (M : contains "min_timestep_limit" v).
  { assert (ML : contains "min_timestep_limit" line).
    { apply contains_iff. destruct (py_in "min_timestep_limit" line) eqn:M; [reflexivity|]. exfalso.
      apply (N line v); [apply in_or_app; right; left; reflexivity|]. left. split; [exact A|apply not_contains; exact M]. }
    destruct A as (rest & E & ST). assert (MR : contains "min_timestep_limit" rest).
    { apply contains_iff in ML. apply contains_iff. destruct E as [->| ->].
      - rewrite after_prefix in ML; [exact ML|reflexivity].
      - rewrite after_prefix in ML; [exact ML|reflexivity]. }
    destruct ST as (a & b & -> & BA & BB & T). apply (strip_keeps a b); assumption. }
  split; [|exact M]. unfold get_flag_from_MESA_output. rewrite rev_app_distr. cbn [rev]. rewrite <- app_assoc. cbn [app].
  apply scan_last; [exact A| | |].
  - intros l c L. apply N. apply in_rev. rewrite rev_app_distr. cbn [rev]. rewrite <- app_assoc. exact L.
  - intros l c L. apply B. apply in_rev. exact L.
  - intros ->. destruct M as (a & b & M). destruct a; discriminate.
Qed.
Print Assumptions C64_timestep.

(** Without any announcement, or without a file, the run is taken to have met the time limit of the cluster. *)
Theorem C64_none :
  get_flag_from_MESA_output None = "reach cluster timelimit" /\
  forall lines, (forall l c, In l lines -> ~ settles l c /\ ~ announces l c) ->
    get_flag_from_MESA_output (Some lines) = "reach cluster timelimit".
Proof.
  split; [reflexivity|]. intros lines H. unfold get_flag_from_MESA_output. rewrite <- (app_nil_r (rev lines)).
  rewrite scan_skip; [reflexivity| |]; intros l c L; apply in_rev in L; apply (H l c L).
Qed.
Print Assumptions C64_none.

(** Every file is in one of the three cases. *)
Theorem C64_exhaustive : forall lines,
  (exists before line after v, lines = before ++ line :: after /\ settles line v /\ forall l c, In l after -> ~ settles l c) \/
  ((forall l c, In l lines -> ~ settles l c) /\
   ((exists before line after v, lines = before ++ line :: after /\ announces line v /\ forall l c, In l before -> ~ announces l c) \/
    (forall l c, In l lines -> ~ announces l c))).
Proof.
  assert (DS : forall l, (exists c, settles l c) \/ forall c, ~ settles l c).
  { intros l. destruct (announced l) eqn:A.
    - destruct (py_in "min_timestep_limit" l) eqn:M.
      + right. intros c [[_ H]|(H & _)].
        * apply H, contains_iff. exact M.
        * apply announced_false in H. congruence.
      + left. exists (value_of l). left. split; [apply announced_spec; auto|apply not_contains; exact M].
    - pose proof (proj1 (announced_false l) A) as A'. destruct (py_in "min_timestep_limit" l && py_in "Reached TPAGB" l) eqn:E.
      + apply andb_prop in E as [E1 E2]. left. exists "Reached TPAGB". right. rewrite <- !contains_iff. auto.
      + right. intros c [[H _]|(_ & H1 & H2 & _)]; [apply (A' c H)|].
        apply contains_iff in H1, H2. rewrite H1, H2 in E. discriminate. }
  assert (DA : forall l, (exists c, announces l c) \/ forall c, ~ announces l c).
  { intros l. destruct (announced l) eqn:A; [left; exists (value_of l); apply announced_spec; auto|right; apply announced_false; exact A]. }
  intros lines. assert (L1 : (exists before line after v, lines = before ++ line :: after /\ settles line v /\ forall l c, In l after -> ~ settles l c)
     \/ forall l c, In l lines -> ~ settles l c).
  { induction lines as [|x lines IH]; [right; intros l c []|]. destruct IH as [(b & l & a & v & -> & S & N)|N].
    - left. exists (x :: b), l, a, v. auto.
    - destruct (DS x) as [(c & C)|C]; [left; exists [], x, lines, c; auto|right]. intros l c [<-|L]; auto. }
  destruct L1 as [L1|L1]; [left; exact L1|right]. split; [exact L1|]. clear L1.
  induction lines as [|x lines IH]; [right; intros l c []|]. destruct (DA x) as [(c & C)|C].
  - left. exists [], x, lines, c. split; [reflexivity|]. split; [exact C|]. intros l d [].
  - destruct IH as [(b & l & a & v & -> & S & N)|N].
    + left. exists (x :: b), l, a, v. split; [reflexivity|]. split; [exact S|]. intros l' c [<-|L]; auto.
    + right. intros l c [<-|L]; auto.
Qed.
Print Assumptions C64_exhaustive.

(** The last announcement is not always the flag, as the documentation of the function says: a second one about the
    time step is ignored, and so is any text before "Terminate:". *)
Theorem C64_last_refuted :
  get_flag_from_MESA_output (Some ["termination code: min_timestep_limit a"; "step"; "termination code: min_timestep_limit b"])
    = "min_timestep_limit a" /\
  get_flag_from_MESA_output (Some [" Terminate: max_age"; "done"]) = "reach cluster timelimit".
Proof. split; reflexivity. Qed.
Print Assumptions C64_last_refuted.

Example C64_runs :
  get_flag_from_MESA_output (Some ["Terminate: max_age "; "termination code: min_timestep_limit"; "x"]) = "max_age" /\
  get_flag_from_MESA_output (Some ["Terminate: max_age"; "min_timestep_limit, Reached TPAGB"]) = "Reached TPAGB" /\
  settles "Terminate: max_age " "max_age".
Proof.
  split; [reflexivity|]. split; [reflexivity|]. left. split.
  - apply announced_spec. split; reflexivity.
  - apply not_contains. reflexivity.
Qed.
