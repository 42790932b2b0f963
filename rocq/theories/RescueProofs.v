From Coq Require Import String Ascii List Bool ZArith Lia Sorted Permutation.
From Coq Require Import DecimalString DecimalNat.
From Verif Require Import PyBase PyStr PySplit PyStrip PyReplace PopModel PopProofs SimPropModel RescueModel RescueSpec.
Import ListNotations.
Open Scope list_scope.
Open Scope string_scope.

Notation lf := "010"%char.

(** ** Characters *)
Lemma lacks_app : forall c a b, lacks c (a ++ b) <-> lacks c a /\ lacks c b.
Proof. induction a as [|x a IH]; intro b; cbn; [tauto|]. rewrite IH. tauto. Qed.
Lemma eqb_neq_char : forall a b : ascii, a <> b -> Ascii.eqb a b = false.
Proof. intros. apply Ascii.eqb_neq. assumption. Qed.
Definition digit_char (c : ascii) : Prop := exists k, k < 10 /\ c = ascii_of_nat (48 + k).
Fixpoint digits (s : string) : Prop := match s with EmptyString => True | String c r => digit_char c /\ digits r end.
Lemma uint_digits : forall u, digits (NilEmpty.string_of_uint u).
Proof.
  induction u; cbn [NilEmpty.string_of_uint digits]; try exact I;
    (split; [|assumption]);
    [exists 0|exists 1|exists 2|exists 3|exists 4|exists 5|exists 6|exists 7|exists 8|exists 9]; split; (lia || reflexivity).
Qed.
Lemma str_nat_digits : forall n, digits (str_nat n).
Proof.
  intro n. unfold str_nat, NilZero.string_of_uint. destruct (Nat.to_uint n) eqn:E; try apply uint_digits.
  cbn. split; [exists 0; split; (lia || reflexivity)|exact I].
Qed.
Lemma str_nat_full : forall n, str_nat n <> "".
Proof.
  intro n. destruct (str_nat_head n) as (c & s & E & _). rewrite E. discriminate.
Qed.
Lemma digits_lacks : forall c, (forall k, k < 10 -> ascii_of_nat (48 + k) <> c) -> forall s, digits s -> lacks c s.
Proof.
  intros c H s. induction s as [|x s IH]; cbn; [trivial|]. intros [(k & K & ->) D]. split; [apply H; exact K|apply IH; exact D].
Qed.
Ltac ten := let k := fresh in let K := fresh in intros k K; do 10 (destruct k as [|k]; [discriminate|]); lia.
Lemma str_nat_lacks : forall n c, In c ["="; "-"; "%"; ","; "."; "_"; lf; ")"; "}"]%char -> lacks c (str_nat n).
Proof.
  intros n c H. apply digits_lacks; [|apply str_nat_digits].
  cbn in H. repeat destruct H as [<- |H]; try (ten); contradiction.
Qed.
Lemma digits_trim : forall s, digits s -> trim s.
Proof.
  assert (Q : forall c, digit_char c -> is_space c = false).
  { intros c (k & K & ->). do 10 (destruct k as [|k]; [reflexivity|]). lia. }
  intros s D. destruct s as [|c r]; [left; reflexivity|]. right. split.
  - exists c, r. split; [reflexivity|]. apply Q. apply D.
  - revert c D. induction r as [|d r IH]; intros c D.
    + exists "", c. split; [reflexivity|]. apply Q, D.
    + destruct (IH d (proj2 D)) as (r' & e & E & S). exists (String c r'), e. cbn. rewrite <- E. split; [reflexivity|exact S].
Qed.

(** ** Numbers *)
Lemma number_str : forall n, number (str_nat n) = Some n.
Proof.
  intro n. unfold number, str_nat. rewrite NilZero.usu by apply to_uint_nonnil. cbn. f_equal. apply Unsigned.of_to.
Qed.
Lemma digit_of : forall k, k < 10 -> digit (ascii_of_nat (48 + k)) = Some (Z.of_nat k).
Proof. intros k K. do 10 (destruct k as [|k]; [reflexivity|]). lia. Qed.
Lemma int_uint : forall u acc fr, (fr = true -> u <> Decimal.Nil) ->
  int_digits (NilEmpty.string_of_uint u) (Z.of_nat acc) fr = Some (Z.of_nat (Nat.of_uint_acc u acc)).
Proof.
  induction u; intros acc fr H; cbn [NilEmpty.string_of_uint int_digits Nat.of_uint_acc];
    [destruct fr; [exfalso; apply H; reflexivity|reflexivity]|..];
    cbn [digit nat_of_ascii]; rewrite Nat.tail_mul_spec;
    match goal with |- context [digit ?c] => let d := eval vm_compute in (digit c) in change (digit c) with d end;
    cbv iota beta;
    match goal with |- int_digits _ ?z _ = _ => match goal with |- context [Nat.of_uint_acc _ ?m] =>
      replace z with (Z.of_nat m) by lia end end; apply IHu; intro; discriminate.
Qed.
Lemma int_str_nat : forall n, int_digits (str_nat n) 0 true = Some (Z.of_nat n).
Proof.
  intro n. unfold str_nat, NilZero.string_of_uint. destruct (Nat.to_uint n) eqn:E;
    [exfalso; exact (to_uint_nonnil n E)|..]; rewrite <- E;
    change 0%Z with (Z.of_nat 0); rewrite int_uint by (intros _; apply to_uint_nonnil);
    do 2 f_equal; exact (Unsigned.of_to n).
Qed.
Lemma strip_trim : forall s, trim s -> strip s = s.
Proof.
  intros s T. apply (stripped_unique s); [apply strip_stripped|]. exists "", "". rewrite str_nil_r.
  repeat split; try apply blank_nil; exact T.
Qed.
Lemma strip_line : forall s, trim s -> strip (s ++ nl) = s.
Proof.
  intros s T. apply (stripped_unique (s ++ nl)); [apply strip_stripped|]. exists "", nl.
  split; [reflexivity|]. split; [apply blank_nil|]. split; [|exact T]. apply blank_cons; [reflexivity|apply blank_nil].
Qed.
Lemma py_int_nat : forall n, py_int (str_nat n) = Ok (Z.of_nat n).
Proof.
  intro n. unfold py_int. rewrite strip_trim by (apply digits_trim, str_nat_digits).
  pose proof (str_nat_lacks n "-"%char ltac:(cbn; tauto)) as A.
  pose proof (str_nat_digits n) as D. pose proof (int_str_nat n) as I.
  destruct (str_nat n) as [|c r] eqn:E; [exfalso; exact (str_nat_full n E)|].
  destruct A as [A _]. rewrite (eqb_neq_char _ _ A).
  assert (B : c <> "+"%char) by (destruct D as [(k & K & Q) _]; clear - K Q; subst c; revert k K; ten).
  rewrite (eqb_neq_char _ _ B), I. reflexivity.
Qed.
Lemma str_Z_nat : forall n, str_Z (Z.of_nat n) = str_nat n.
Proof. intro n. unfold str_Z. destruct (Z.ltb_spec (Z.of_nat n) 0); [lia|]. rewrite Nat2Z.id. reflexivity. Qed.

(** ** Splitting *)
Lemma partition_char : forall c a b, lacks c a -> partition (String c "") (a ++ String c b) = Some (a, b).
Proof.
  intros c a b. induction a as [|x a IH]; intro L.
  - cbn. destruct (ascii_dec c c); [destruct b; reflexivity|congruence].
  - destruct L as [N L]. cbn [append partition prefix]. destruct (ascii_dec c x); [congruence|]. rewrite IH by exact L. reflexivity.
Qed.
Lemma lacks_not_in : forall c s, lacks c s -> py_in (String c "") s = false.
Proof.
  intros c s. induction s as [|x s IH]; intro L; [reflexivity|]. destruct L as [N L]. cbn [py_in prefix].
  destruct (ascii_dec c x); [congruence|]. cbn. apply IH. exact L.
Qed.
Lemma in_char : forall c a b, py_in (String c "") (a ++ String c b) = true.
Proof. intros. apply py_in_iff. exists a, b. reflexivity. Qed.
Lemma split_char : forall c a b, lacks c a -> split (String c "") (a ++ String c b) = a :: split (String c "") b.
Proof. intros. apply split_cons; [discriminate|]. apply partition_char. assumption. Qed.
Lemma split_lacks : forall c a, lacks c a -> split (String c "") a = [a].
Proof. intros c a L. apply split_one; [discriminate|]. apply partition_none. apply lacks_not_in. exact L. Qed.
Lemma cut_lacks : forall c a, lacks c a -> cut c a = [a].
Proof.
  intros c a. induction a as [|x a IH]; intro L; [reflexivity|]. destruct L as [N L]. cbn.
  rewrite (eqb_neq_char _ _ N), (IH L). reflexivity.
Qed.
Lemma cut_at : forall c a b, lacks c a -> cut c (a ++ String c b) = a :: cut c b.
Proof.
  intros c a b. induction a as [|x a IH]; intro L; cbn.
  - rewrite Ascii.eqb_refl. reflexivity.
  - destruct L as [N L]. rewrite (eqb_neq_char _ _ N), (IH L). reflexivity.
Qed.
Lemma cut_join : forall c l, Forall (lacks c) l -> l <> [] -> cut c (sjoin (String c "") l) = l.
Proof.
  intros c l F N. induction F as [|x r L F IH]; [congruence|]. destruct r as [|y r].
  - cbn [sjoin]. apply cut_lacks. exact L.
  - change (sjoin (String c "") (x :: y :: r)) with (x ++ String c (sjoin (String c "") (y :: r))).
    rewrite cut_at by exact L. rewrite IH by discriminate. reflexivity.
Qed.

(** ** Lines *)
Lemma lines_script : forall l t, Forall (lacks lf) l -> lines (script l ++ t) = (l ++ lines t)%list.
Proof.
  intros l t F. induction F as [|x r L F IH]; [reflexivity|]. cbn [script fold_right]. fold (script r).
  replace ((x ++ nl ++ script r) ++ t) with (x ++ String lf (script r ++ t)).
  - unfold lines. rewrite cut_at by exact L. cbn [app]. f_equal. exact IH.
  - rewrite <- !str_assoc. reflexivity.
Qed.
Lemma readlines_line : forall a s, lacks lf a -> readlines (a ++ String lf s) = (a ++ nl) :: readlines s.
Proof.
  intros a s. induction a as [|x a IH]; intro L; [reflexivity|]. destruct L as [N L]. cbn [append readlines].
  rewrite (eqb_neq_char _ _ N), (IH L). reflexivity.
Qed.
Lemma readlines_script : forall l t, Forall (lacks lf) l -> readlines (script l ++ t) = (map (fun x => (x ++ nl)%string) l ++ readlines t)%list.
Proof.
  intros l t F. induction F as [|x r L F IH]; [reflexivity|]. cbn [script fold_right map]. fold (script r).
  replace ((x ++ nl ++ script r) ++ t) with (x ++ String lf (script r ++ t)).
  - rewrite readlines_line by exact L. cbn [app]. f_equal. exact IH.
  - rewrite <- !str_assoc. reflexivity.
Qed.
Lemma section_script : forall l, Forall (fun x => x <> "") l -> optional_section l = script l.
Proof.
  intros l F. unfold optional_section. destruct l as [|x r]; [reflexivity|].
  assert (Q : sjoin nl (x :: r) <> "").
  { inversion F; subst. destruct x; [congruence|]. destruct r; discriminate. }
  apply String.eqb_neq in Q. rewrite Q. clear Q. revert x F. induction r as [|y r IH]; intros x F.
  - cbn. reflexivity.
  - change (sjoin nl (x :: y :: r)) with (x ++ nl ++ sjoin nl (y :: r)).
    change (script (x :: y :: r)) with (x ++ nl ++ script (y :: r)).
    inversion F; subst. rewrite <- (IH y) by assumption. rewrite <- !str_assoc. reflexivity.
Qed.
Lemma script_app : forall a b, script (a ++ b) = script a ++ script b.
Proof. induction a as [|x a IH]; intro b; [reflexivity|]. cbn [app script fold_right]. fold (script (a ++ b)) (script a). rewrite IH, <- !str_assoc. reflexivity. Qed.

(** ** Metallicities *)
Definition supported : list (Z * string) :=
  [(20000%Z, "2e+00"); (10000%Z, "1e+00"); (4500%Z, "4.5e-01"); (2000%Z, "2e-01"); (1000%Z, "1e-01"); (100%Z, "1e-02");
   (10%Z, "1e-03"); (1%Z, "1e-04")].
Lemma zstring_in : forall z met, zstring (VNum z) = Ok met -> In (z, met) supported.
Proof.
  intros z met H. unfold zstring in H.
  assert (Q : In z (map fst supported)).
  { cbn. destruct (Z.eq_dec 20000 z); [tauto|]. destruct (Z.eq_dec 10000 z); [tauto|]. destruct (Z.eq_dec 4500 z); [tauto|].
    destruct (Z.eq_dec 2000 z); [tauto|]. destruct (Z.eq_dec 1000 z); [tauto|]. destruct (Z.eq_dec 100 z); [tauto|].
    destruct (Z.eq_dec 10 z); [tauto|]. destruct (Z.eq_dec 1 z); [tauto|]. exfalso.
    destruct z as [|p|p]; try discriminate H.
    do 15 (destruct p as [p|p|]; try discriminate H; try congruence). }
  cbn in Q. cbn. repeat destruct Q as [<- |Q]; try contradiction;
    match type of H with Ok ?a = _ => assert (W : met = a) by congruence; rewrite W end; tauto.
Qed.
Ltac each_met H := apply zstring_in in H; cbn [In supported] in H;
  repeat (destruct H as [H|H]; [injection H as <- <-|]); try contradiction.
Lemma met_lacks : forall z met, zstring (VNum z) = Ok met -> lacks lf met /\ lacks "_"%char met /\ lacks ")"%char met /\ lacks lf (zrepr z) /\ lacks "="%char met.
Proof. intros z met H. each_met H; repeat split; discriminate. Qed.

(** ** The scripts as lists of lines *)
Definition one_line (s : settings) : Prop :=
  (forall x, s_time s = Some x -> lacks lf x) /\ (forall x, s_mem s = Some x -> lacks lf x) /\
  (forall x, s_partition s = Some x -> lacks lf x) /\ (forall x, s_account s = Some x -> lacks lf x) /\
  (forall x, s_email s = Some x -> lacks lf x) /\ (forall x, s_exclude s = Some x -> lacks lf x).
Lemma directives_full : forall s, Forall (fun x => x <> "") (directives s).
Proof. intros [? ? [?|] [?|] [?|] [?|] ?]; cbn; repeat constructor; discriminate. Qed.
Lemma directives_lines : forall s, one_line s -> Forall (lacks lf) (directives s).
Proof.
  intros s (_ & _ & P & A & E & X). unfold directives. repeat rewrite Forall_app. repeat split.
  - destruct (s_account s) as [x|]; constructor; [|constructor]. apply lacks_app. split; [repeat split; discriminate|auto].
  - destruct (s_partition s) as [x|]; constructor; [|constructor]. apply lacks_app. split; [repeat split; discriminate|auto].
  - destruct (s_email s) as [x|]; repeat constructor; try discriminate. auto.
  - destruct (s_exclude s) as [x|]; constructor; [|constructor]. apply lacks_app. split; [repeat split; discriminate|auto].
Qed.
Lemma str_Z_lf : forall z, lacks lf (str_Z z).
Proof.
  intro z. unfold str_Z. destruct (z <? 0)%Z; [cbn; split; [discriminate|]|]; apply str_nat_lacks; cbn; tauto.
Qed.
Lemma limited_lf : forall s m, lacks lf s -> lacks lf (limited s m).
Proof.
  intros s [k|] L; [|exact L]. cbn [limited]. apply lacks_app. split; [exact L|]. split; [discriminate|]. apply str_Z_lf.
Qed.
Lemma show_lf : forall o, (forall x, o = Some x -> lacks lf x) -> lacks lf (show o).
Proof. intros [x|] H; cbn; [auto|]. repeat split; discriminate. Qed.

Definition array_lines (z : Z) (met : string) (n : Z) (s : settings) (path data : string) : list string :=
  (["#!/bin/bash"; "#SBATCH --array=0-" ++ limited (str_Z (n - 1)) (s_limit s);
    "#SBATCH --job-name=" ++ met ++ "_popsyn"; "#SBATCH --output=./" ++ met ++ "_logs/popsyn_%A_%a.out";
    "#SBATCH --time=" ++ show (s_time s); "#SBATCH --mem-per-cpu=" ++ show (s_mem s)]%string
   ++ directives s
   ++ ["export PATH_TO_POSYDON=" ++ path; "export PATH_TO_POSYDON_DATA=" ++ data;
       "srun python ./run_metallicity.py " ++ zrepr z]%string)%list.
Definition rescue_lines (z : Z) (met : string) (missing : list Z) (n : option Z) (s : settings) (path data : option string) : list string :=
  (["#!/bin/bash"; "#SBATCH --array=" ++ limited (sjoin "," (map str_Z (sort missing))) (s_limit s);
    "#SBATCH --job-name=" ++ met ++ "_popsyn_rescue"; "#SBATCH --output=./" ++ met ++ "_logs/rescue_%A_%a.out";
    "#SBATCH --time=" ++ show (s_time s); "#SBATCH --mem-per-cpu=" ++ show (s_mem s)]%string
   ++ directives s
   ++ [""; "export PATH_TO_POSYDON=" ++ show path; "export PATH_TO_POSYDON_DATA=" ++ show data; "";
       "export SLURM_ARRAY_TASK_COUNT=" ++ match n with Some k => str_Z k | None => "None" end;
       "export SLURM_ARRAY_TASK_MIN=0"; ""; "srun python ./run_metallicity.py " ++ zrepr z]%string)%list.
Lemma array_text : forall z met n s path data, zstring (VNum z) = Ok met ->
  create_slurm_array z n s path data = Ok (met ++ "_Zsun_slurm_array.slurm", script (array_lines z met n s path data)).
Proof.
  intros z met n s path data H. unfold create_slurm_array. rewrite H. cbn [rbind]. unfold array_lines.
  rewrite !script_app, section_script by apply directives_full. reflexivity.
Qed.
Lemma rescue_text : forall z met missing n s path data, zstring (VNum z) = Ok met ->
  create_slurm_rescue z missing n s path data = Ok (met ++ "_Zsun_rescue.slurm", script (rescue_lines z met missing n s path data)).
Proof.
  intros z met missing n s path data H. unfold create_slurm_rescue. rewrite H. cbn [rbind]. unfold rescue_lines.
  rewrite !script_app, section_script by apply directives_full. reflexivity.
Qed.
Ltac lits := repeat split; discriminate.
Lemma array_lines_lf : forall z met n s path data, zstring (VNum z) = Ok met -> one_line s -> lacks lf path -> lacks lf data ->
  Forall (lacks lf) (array_lines z met n s path data).
Proof.
  intros z met n s path data H O P D. destruct (met_lacks z met H) as (M & _ & _ & R & _). unfold array_lines. rewrite !Forall_app.
  split; [|split].
  - repeat apply Forall_cons; try apply Forall_nil; try lits; (apply lacks_app; split; [lits|]);
      first [apply limited_lf, str_Z_lf | apply lacks_app; split; [exact M|lits] | apply show_lf; apply O].
  - apply directives_lines, O.
  - repeat apply Forall_cons; try apply Forall_nil; try lits; (apply lacks_app; split; [lits|assumption]).
Qed.
Lemma join_lf : forall l, lacks lf (sjoin "," (map str_Z l)).
Proof.
  induction l as [|x [|y l] IH]; [exact I|apply str_Z_lf|].
  change (sjoin "," (map str_Z (x :: y :: l))) with (str_Z x ++ "," ++ sjoin "," (map str_Z (y :: l))).
  apply lacks_app. split; [apply str_Z_lf|]. split; [discriminate|exact IH].
Qed.
Lemma rescue_lines_lf : forall z met l n s path data, zstring (VNum z) = Ok met -> one_line s -> lacks lf (show path) -> lacks lf (show data) ->
  Forall (lacks lf) (rescue_lines z met l n s path data).
Proof.
  intros z met l n s path data H O P D. destruct (met_lacks z met H) as (M & _ & _ & R & _). unfold rescue_lines. rewrite !Forall_app.
  split; [|split].
  - repeat apply Forall_cons; try apply Forall_nil; try lits; (apply lacks_app; split; [lits|]);
      first [apply limited_lf, join_lf | apply lacks_app; split; [exact M|lits] | apply show_lf; apply O].
  - apply directives_lines, O.
  - repeat apply Forall_cons; try apply Forall_nil; try lits; (apply lacks_app; split; [lits|]); try assumption.
    destruct n as [k|]; [apply str_Z_lf|lits].
Qed.
Lemma lines_of : forall l, Forall (lacks lf) l -> lines (script l) = (l ++ [""])%list.
Proof. intros l F. rewrite <- (str_nil_r (script l)), lines_script by exact F. reflexivity. Qed.
Lemma readlines_of : forall l, Forall (lacks lf) l -> readlines (script l) = map (fun x => (x ++ nl)%string) l.
Proof. intros l F. rewrite <- (str_nil_r (script l)), readlines_script by exact F. apply app_nil_r. Qed.

(** ** Arrays *)
Lemma array_range : forall n k, 1 <= n -> (forall j, k = Some j -> (0 <= j)%Z) ->
  array ("0-" ++ limited (str_Z (Z.of_nat n - 1)) k) = Some (seq 0 n, option_map Z.to_nat k).
Proof.
  intros n k N K. replace (Z.of_nat n - 1)%Z with (Z.of_nat (n - 1)) by lia. rewrite str_Z_nat.
  assert (E : element ("0-" ++ str_nat (n - 1)) = Some (seq 0 n)).
  { unfold element. change ("0-" ++ str_nat (n - 1)) with ("0" ++ String "-" (str_nat (n - 1))).
    rewrite cut_at by (split; [discriminate|exact I]). rewrite cut_lacks by (apply str_nat_lacks; cbn; tauto).
    change (number "0") with (Some 0). rewrite number_str. do 2 f_equal. lia. }
  assert (S : elements (cut ","%char ("0-" ++ str_nat (n - 1))) = Some (seq 0 n)).
  { rewrite cut_lacks by (split; [discriminate|]; split; [discriminate|]; apply str_nat_lacks; cbn; tauto).
    cbn [elements]. rewrite E. rewrite app_nil_r. reflexivity. }
  unfold array. assert (L : lacks "%"%char ("0-" ++ str_nat (n - 1))).
  { split; [discriminate|]; split; [discriminate|]; apply str_nat_lacks; cbn; tauto. }
  destruct k as [j|]; cbn [limited option_map].
  - pose proof (K j eq_refl). rewrite <- (Z2Nat.id j) at 1 by assumption. rewrite str_Z_nat.
    change ("0-" ++ str_nat (n - 1) ++ "%" ++ str_nat (Z.to_nat j)) with (("0-" ++ str_nat (n - 1)) ++ String "%" (str_nat (Z.to_nat j))).
    rewrite cut_at by exact L. rewrite cut_lacks by (apply str_nat_lacks; cbn; tauto). rewrite S, number_str. reflexivity.
  - rewrite cut_lacks by exact L. rewrite S. reflexivity.
Qed.
Lemma elements_list : forall l, elements (map str_nat l) = Some l.
Proof.
  induction l as [|x l IH]; [reflexivity|]. cbn [map elements]. rewrite IH. unfold element.
  rewrite cut_lacks by (apply str_nat_lacks; cbn; tauto). rewrite number_str. reflexivity.
Qed.
Lemma join_lacks : forall c l, c <> ","%char -> In c ["="; "-"; "%"; ","; "."; "_"; lf; ")"; "}"]%char -> lacks c (sjoin "," (map str_nat l)).
Proof.
  intros c l N C. induction l as [|x [|y l] IH]; [exact I|apply str_nat_lacks, C|].
  change (sjoin "," (map str_nat (x :: y :: l))) with (str_nat x ++ "," ++ sjoin "," (map str_nat (y :: l))).
  apply lacks_app. split; [apply str_nat_lacks, C|]. split; [congruence|exact IH].
Qed.
Lemma array_list : forall l k, l <> [] -> (forall j, k = Some j -> (0 <= j)%Z) ->
  array (limited (sjoin "," (map str_nat l)) k) = Some (l, option_map Z.to_nat k).
Proof.
  intros l k N K.
  assert (S : elements (cut ","%char (sjoin "," (map str_nat l))) = Some l).
  { rewrite cut_join; [apply elements_list| |destruct l; [congruence|discriminate]].
    apply Forall_forall. intros x X. apply in_map_iff in X. destruct X as (i & <- & _). apply str_nat_lacks. cbn; tauto. }
  assert (L : lacks "%"%char (sjoin "," (map str_nat l))) by (apply join_lacks; [discriminate|cbn; tauto]).
  unfold array. destruct k as [j|]; cbn [limited option_map].
  - pose proof (K j eq_refl). rewrite <- (Z2Nat.id j) at 1 by assumption. rewrite str_Z_nat.
    change (sjoin "," (map str_nat l) ++ "%" ++ str_nat (Z.to_nat j)) with (sjoin "," (map str_nat l) ++ String "%" (str_nat (Z.to_nat j))).
    rewrite cut_at by exact L. rewrite cut_lacks by (apply str_nat_lacks; cbn; tauto). rewrite S, number_str. reflexivity.
  - rewrite cut_lacks by exact L. rewrite S. reflexivity.
Qed.
