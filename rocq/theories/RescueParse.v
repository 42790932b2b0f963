From Coq Require Import String Ascii List Bool ZArith Lia Sorted Permutation.
From Verif Require Import PyBase PyStr PySplit PyStrip PyReplace PopModel PopProofs SimPropModel RescueModel RescueSpec RescueProofs.
Import ListNotations.
Open Scope list_scope.
Open Scope string_scope.

(** Values which survive being written and read: one line, no sign of equality, no blanks at the ends. *)
Definition clean (v : string) : Prop := lacks "="%char v /\ lacks lf v /\ trim v.
Definition clean_opt (o : option string) : Prop := forall v, o = Some v -> clean v.
Definition clean_settings (s : settings) : Prop :=
  clean_opt (s_time s) /\ clean_opt (s_mem s) /\ clean_opt (s_partition s) /\ clean_opt (s_account s) /\
  clean_opt (s_email s) /\ clean_opt (s_exclude s) /\ forall k, s_limit s = Some k -> (0 <= k)%Z.
Lemma clean_one_line : forall s, clean_settings s -> one_line s.
Proof. intros s (A & B & C & D & E & F & _). repeat split; intros x X; [apply (A x X)|apply (B x X)|apply (C x X)|apply (D x X)|apply (E x X)|apply (F x X)]. Qed.

Fixpoint solid (s : string) : Prop := match s with EmptyString => True | String c r => is_space c = false /\ solid r end.
Lemma solid_app : forall a b, solid (a ++ b) <-> solid a /\ solid b.
Proof. induction a as [|x a IH]; intro b; cbn; [tauto|]. rewrite IH. tauto. Qed.
Lemma solid_trim : forall s, solid s -> trim s.
Proof.
  intros s D. destruct s as [|c r]; [left; reflexivity|]. right. split.
  - exists c, r. split; [reflexivity|apply D].
  - revert c D. induction r as [|d r IH]; intros c D.
    + exists "", c. split; [reflexivity|apply D].
    + destruct (IH d (proj2 D)) as (r' & e & E & S). exists (String c r'), e. cbn. rewrite <- E. split; [reflexivity|exact S].
Qed.
Lemma digits_solid : forall s, digits s -> solid s.
Proof.
  induction s as [|c s IH]; [trivial|]. intros [(k & K & ->) D]. split; [|apply IH, D].
  do 10 (destruct k as [|k]; [reflexivity|]). lia.
Qed.
Lemma value_line : forall lit v, lacks "="%char lit -> clean v -> value ((lit ++ String "=" v) ++ nl) = v.
Proof.
  intros lit v L (E & _ & T). unfold value. rewrite <- str_assoc. change (String "=" v ++ nl) with (String "=" (v ++ nl)).
  rewrite split_char by exact L. rewrite split_lacks by (apply lacks_app; split; [exact E|split; [discriminate|exact I]]).
  cbn [nth]. apply strip_line. exact T.
Qed.
Lemma py_int_zero : py_int "0" = Ok 0%Z.
Proof. reflexivity. Qed.
Lemma range_of : forall n, 1 <= n -> range_length ("0-" ++ str_nat (n - 1)) = Ok (Z.of_nat n).
Proof.
  intros n N. unfold range_length. change ("0-" ++ str_nat (n - 1)) with ("0" ++ String "-" (str_nat (n - 1))).
  rewrite split_char by (split; [discriminate|exact I]). rewrite split_lacks by (apply str_nat_lacks; cbn; tauto).
  cbn [rmap]. rewrite py_int_zero, py_int_nat. cbn [rbind]. f_equal. lia.
Qed.
Lemma clean_range : forall n k, 1 <= n -> (forall j, k = Some j -> (0 <= j)%Z) -> clean ("0-" ++ limited (str_Z (Z.of_nat n - 1)) k).
Proof.
  intros n k N K. replace (Z.of_nat n - 1)%Z with (Z.of_nat (n - 1)) by lia. rewrite str_Z_nat.
  destruct k as [j|]; cbn [limited].
  - pose proof (K j eq_refl). rewrite <- (Z2Nat.id j) by assumption. rewrite str_Z_nat. split; [|split].
    + split; [discriminate|]. split; [discriminate|]. apply (lacks_app _ (str_nat (n - 1))). split; [apply str_nat_lacks; cbn; tauto|].
      split; [discriminate|]. apply str_nat_lacks; cbn; tauto.
    + split; [discriminate|]. split; [discriminate|]. apply (lacks_app _ (str_nat (n - 1))). split; [apply str_nat_lacks; cbn; tauto|].
      split; [discriminate|]. apply str_nat_lacks; cbn; tauto.
    + apply solid_trim. split; [reflexivity|]. split; [reflexivity|]. apply (solid_app (str_nat (n - 1))). split; [apply digits_solid, str_nat_digits|].
      split; [reflexivity|]. apply digits_solid, str_nat_digits.
  - split; [|split].
    + split; [discriminate|]. split; [discriminate|]. apply str_nat_lacks; cbn; tauto.
    + split; [discriminate|]. split; [discriminate|]. apply str_nat_lacks; cbn; tauto.
    + apply solid_trim. split; [reflexivity|]. split; [reflexivity|]. apply digits_solid, str_nat_digits.
Qed.
Lemma prefix_line : forall a v b, prefix a ((a ++ v) ++ b) = true.
Proof. intros. rewrite <- str_assoc. apply prefix_append. Qed.
Ltac prefixes := repeat match goal with |- context [prefix ?a ?b] =>
  let r := eval hnf in (prefix a b) in match r with true => idtac | false => idtac end; change (prefix a b) with r end; rewrite ?prefix_line; cbv iota.
Definition array_line (n : nat) (k : option Z) : string := ("#SBATCH --array=0-" ++ limited (str_Z (Z.of_nat n - 1)) k) ++ nl.
Lemma array_value : forall n k, 1 <= n -> (forall j, k = Some j -> (0 <= j)%Z) ->
  value (array_line n k) = "0-" ++ limited (str_nat (n - 1)) k.
Proof.
  intros n k N K. unfold array_line.
  change ("#SBATCH --array=0-" ++ limited (str_Z (Z.of_nat n - 1)) k)
    with ("#SBATCH --array" ++ String "=" ("0-" ++ limited (str_Z (Z.of_nat n - 1)) k)).
  rewrite value_line; [|lits|apply clean_range; assumption].
  replace (Z.of_nat n - 1)%Z with (Z.of_nat (n - 1)) by lia. rewrite str_Z_nat. reflexivity.
Qed.
Lemma range_plain : forall n c, In c ["%"; ","]%char -> lacks c ("0-" ++ str_nat n).
Proof.
  intros n c C. split; [|split]; [| |apply str_nat_lacks; cbn in *; tauto]; cbn in C; destruct C as [<- |[<- |[]]]; discriminate.
Qed.
Lemma parse_array : forall p n k, 1 <= n -> (forall j, k = Some j -> (0 <= j)%Z) -> s_limit (p_settings p) = None ->
  parse_line p (array_line n k) = Ok (Parsed (Some (Z.of_nat n))
    (Settings (s_time (p_settings p)) (s_mem (p_settings p)) (s_partition (p_settings p)) (s_account (p_settings p))
              (s_email (p_settings p)) (s_exclude (p_settings p)) k) (p_path p) (p_data p)).
Proof.
  intros p n k N K M. unfold parse_line. rewrite (array_value n k N K).
  change (prefix "#SBATCH --array=" (array_line n k)) with true. cbv iota.
  destruct k as [j|]; cbn [limited].
  - pose proof (K j eq_refl).
    change ("0-" ++ str_nat (n - 1) ++ "%" ++ str_Z j) with (("0-" ++ str_nat (n - 1)) ++ String "%" (str_Z j)).
    rewrite in_char. rewrite split_char by (apply range_plain; cbn; tauto).
    rewrite <- (Z2Nat.id j) by assumption. rewrite str_Z_nat. rewrite split_lacks by (apply str_nat_lacks; cbn; tauto).
    cbn [nth hd]. rewrite py_int_nat. cbn [rbind fst snd].
    rewrite (in_char "-"%char "0" (str_nat (n - 1)) : py_in "-" ("0-" ++ str_nat (n - 1)) = true).
    rewrite range_of by exact N. reflexivity.
  - rewrite (lacks_not_in "%"%char ("0-" ++ str_nat (n - 1))) by (apply range_plain; left; reflexivity). cbn [rbind fst snd].
    rewrite (in_char "-"%char "0" (str_nat (n - 1)) : py_in "-" ("0-" ++ str_nat (n - 1)) = true).
    rewrite range_of by exact N. rewrite M. reflexivity.
Qed.
Lemma expected_array : forall n k r, 1 <= n -> (forall j, k = Some j -> (0 <= j)%Z) ->
  expected_in (array_line n k :: r) = Ok (Some (Z.of_nat n)).
Proof.
  intros n k r N K. cbn [expected_in]. rewrite (array_value n k N K).
  change (prefix "#SBATCH --array=" (array_line n k)) with true. cbv iota.
  destruct k as [j|]; cbn [limited].
  - pose proof (K j eq_refl).
    change ("0-" ++ str_nat (n - 1) ++ "%" ++ str_Z j) with (("0-" ++ str_nat (n - 1)) ++ String "%" (str_Z j)).
    rewrite in_char. rewrite split_char by (apply range_plain; cbn; tauto). cbn [hd].
    rewrite (in_char "-"%char "0" (str_nat (n - 1)) : py_in "-" ("0-" ++ str_nat (n - 1)) = true).
    rewrite range_of by exact N. reflexivity.
  - rewrite (lacks_not_in "%"%char ("0-" ++ str_nat (n - 1))) by (apply range_plain; left; reflexivity).
    rewrite (in_char "-"%char "0" (str_nat (n - 1)) : py_in "-" ("0-" ++ str_nat (n - 1)) = true).
    rewrite range_of by exact N. reflexivity.
Qed.
Ltac val L := match goal with |- context [value ((?a ++ ?v) ++ nl)] =>
  replace (value ((a ++ v) ++ nl)) with v by (symmetry; apply (value_line L); [lits|assumption]) end.
Lemma parse_time : forall p v, clean v -> parse_line p (("#SBATCH --time=" ++ v) ++ nl) =
  Ok (Parsed (p_length p) (let s := p_settings p in Settings (Some v) (s_mem s) (s_partition s) (s_account s) (s_email s) (s_exclude s) (s_limit s)) (p_path p) (p_data p)).
Proof. intros p v C. unfold parse_line. prefixes. val "#SBATCH --time". reflexivity. Qed.
Lemma parse_mem : forall p v, clean v -> parse_line p (("#SBATCH --mem-per-cpu=" ++ v) ++ nl) =
  Ok (Parsed (p_length p) (let s := p_settings p in Settings (s_time s) (Some v) (s_partition s) (s_account s) (s_email s) (s_exclude s) (s_limit s)) (p_path p) (p_data p)).
Proof. intros p v C. unfold parse_line. prefixes. val "#SBATCH --mem-per-cpu". reflexivity. Qed.
Lemma parse_partition : forall p v, clean v -> parse_line p (("#SBATCH --partition=" ++ v) ++ nl) =
  Ok (Parsed (p_length p) (let s := p_settings p in Settings (s_time s) (s_mem s) (Some v) (s_account s) (s_email s) (s_exclude s) (s_limit s)) (p_path p) (p_data p)).
Proof. intros p v C. unfold parse_line. prefixes. val "#SBATCH --partition". reflexivity. Qed.
Lemma parse_account : forall p v, clean v -> parse_line p (("#SBATCH --account=" ++ v) ++ nl) =
  Ok (Parsed (p_length p) (let s := p_settings p in Settings (s_time s) (s_mem s) (s_partition s) (Some v) (s_email s) (s_exclude s) (s_limit s)) (p_path p) (p_data p)).
Proof. intros p v C. unfold parse_line. prefixes. val "#SBATCH --account". reflexivity. Qed.
Lemma parse_mail : forall p v, clean v -> parse_line p (("#SBATCH --mail-user=" ++ v) ++ nl) =
  Ok (Parsed (p_length p) (let s := p_settings p in Settings (s_time s) (s_mem s) (s_partition s) (s_account s) (Some v) (s_exclude s) (s_limit s)) (p_path p) (p_data p)).
Proof. intros p v C. unfold parse_line. prefixes. val "#SBATCH --mail-user". reflexivity. Qed.
Lemma parse_exclude : forall p v, clean v -> parse_line p (("#SBATCH --exclude=" ++ v) ++ nl) =
  Ok (Parsed (p_length p) (let s := p_settings p in Settings (s_time s) (s_mem s) (s_partition s) (s_account s) (s_email s) (Some v) (s_limit s)) (p_path p) (p_data p)).
Proof. intros p v C. unfold parse_line. prefixes. val "#SBATCH --exclude". reflexivity. Qed.
Lemma parse_path : forall p v, clean v -> parse_line p (("export PATH_TO_POSYDON=" ++ v) ++ nl) =
  Ok (Parsed (p_length p) (p_settings p) (Some v) (p_data p)).
Proof. intros p v C. unfold parse_line. prefixes. val "export PATH_TO_POSYDON". reflexivity. Qed.
Lemma parse_data : forall p v, clean v -> parse_line p (("export PATH_TO_POSYDON_DATA=" ++ v) ++ nl) =
  Ok (Parsed (p_length p) (p_settings p) (p_path p) (Some v)).
Proof. intros p v C. unfold parse_line. prefixes. val "export PATH_TO_POSYDON_DATA". reflexivity. Qed.
Ltac skips := intros; unfold parse_line; prefixes; reflexivity.
Lemma parse_bash : forall p, parse_line p ("#!/bin/bash" ++ nl) = Ok p.
Proof. skips. Qed.
Lemma parse_job : forall p v, parse_line p (("#SBATCH --job-name=" ++ v) ++ nl) = Ok p.
Proof. skips. Qed.
Lemma parse_output : forall p v, parse_line p (("#SBATCH --output=./" ++ v) ++ nl) = Ok p.
Proof. skips. Qed.
Lemma parse_type : forall p, parse_line p ("#SBATCH --mail-type=FAIL" ++ nl) = Ok p.
Proof. skips. Qed.
Lemma parse_srun : forall p v, parse_line p (("srun python ./run_metallicity.py " ++ v) ++ nl) = Ok p.
Proof. skips. Qed.
Definition reading (l : list string) (r0 : result parsed) : result parsed :=
  fold_left (fun r line => rbind r (fun p => parse_line p line)) (map (fun x => (x ++ nl)%string) l) r0.
Lemma read_account : forall n ti me pa em ex li p d o, clean_opt o ->
  reading (line_if "#SBATCH --account=" o) (Ok (Parsed n (Settings ti me pa None em ex li) p d)) = Ok (Parsed n (Settings ti me pa o em ex li) p d).
Proof. intros n ti me pa em ex li p d [v|] C; [|reflexivity]. unfold reading. cbn [line_if map fold_left rbind]. rewrite parse_account by (apply C; reflexivity). reflexivity. Qed.
Lemma read_partition : forall n ti me ac em ex li p d o, clean_opt o ->
  reading (line_if "#SBATCH --partition=" o) (Ok (Parsed n (Settings ti me None ac em ex li) p d)) = Ok (Parsed n (Settings ti me o ac em ex li) p d).
Proof. intros n ti me ac em ex li p d [v|] C; [|reflexivity]. unfold reading. cbn [line_if map fold_left rbind]. rewrite parse_partition by (apply C; reflexivity). reflexivity. Qed.
Lemma read_exclude : forall n ti me pa ac em li p d o, clean_opt o ->
  reading (line_if "#SBATCH --exclude=" o) (Ok (Parsed n (Settings ti me pa ac em None li) p d)) = Ok (Parsed n (Settings ti me pa ac em o li) p d).
Proof. intros n ti me pa ac em li p d [v|] C; [|reflexivity]. unfold reading. cbn [line_if map fold_left rbind]. rewrite parse_exclude by (apply C; reflexivity). reflexivity. Qed.
Lemma read_mail : forall n ti me pa ac ex li p d o, clean_opt o ->
  reading (mail o) (Ok (Parsed n (Settings ti me pa ac None ex li) p d)) = Ok (Parsed n (Settings ti me pa ac o ex li) p d).
Proof.
  intros n ti me pa ac ex li p d [v|] C; [|reflexivity]. unfold reading. cbn [mail map fold_left rbind]. rewrite parse_type. cbn [rbind].
  rewrite parse_mail by (apply C; reflexivity). reflexivity.
Qed.
Ltac fold_reading := match goal with |- context [fold_left ?f (map ?g (?h ?a ?b)) (Ok ?p)] => change (fold_left f (map g (h a b)) (Ok p)) with (reading (h a b) (Ok p))
  | |- context [fold_left ?f (map ?g (?h ?a)) (Ok ?p)] => change (fold_left f (map g (h a)) (Ok p)) with (reading (h a) (Ok p)) end.
Lemma parse_array_text : forall z met n s path data t m, zstring (VNum z) = Ok met -> 1 <= n -> clean_settings s ->
  s_time s = Some t -> s_mem s = Some m -> clean path -> clean data ->
  parse_script (script (array_lines z met (Z.of_nat n) s path data)) = Ok (Parsed (Some (Z.of_nat n)) s (Some path) (Some data)).
Proof.
  intros z met n s path data t m H N C T M P D. unfold parse_script.
  rewrite readlines_of by (apply array_lines_lf; [exact H|apply clean_one_line, C|apply P|apply D]).
  unfold array_lines. rewrite !map_app, !fold_left_app. cbn [map fold_left]. cbn [rbind].
  rewrite parse_bash. cbn [rbind].
  match goal with |- context [parse_line nothing ?x] => change x with (array_line n (s_limit s)) end.
  rewrite parse_array; [|exact N|apply C|reflexivity]. cbn [rbind]. rewrite parse_job. cbn [rbind]. rewrite parse_output. cbn [rbind].
  rewrite T, M. cbn [show].
  rewrite parse_time by (apply (proj1 C); exact T). cbn [rbind]. rewrite parse_mem by (apply (proj1 (proj2 C)); exact M). cbn [rbind].
  destruct s as [ti me pa ac em ex li]. destruct C as (_ & _ & CP & CA & CE & CX & _).
  cbn [s_time s_mem s_partition s_account s_email s_exclude s_limit] in *. subst ti me.
  unfold directives. cbn [s_time s_mem s_partition s_account s_email s_exclude s_limit]. rewrite !map_app, !fold_left_app.
  cbv zeta. cbn [p_length p_settings p_path p_data nothing s_time s_mem s_partition s_account s_email s_exclude s_limit].
  fold_reading.
  rewrite read_account by exact CA. fold_reading. rewrite read_partition by exact CP. fold_reading. rewrite read_mail by exact CE. fold_reading. rewrite read_exclude by exact CX.
  cbn [rbind]. rewrite parse_path by exact P. cbn [rbind]. rewrite parse_data by exact D. cbn [rbind]. rewrite parse_srun. reflexivity.
Qed.
Lemma expected_array_text : forall z met n s path data, zstring (VNum z) = Ok met -> 1 <= n -> one_line s ->
  (forall k, s_limit s = Some k -> (0 <= k)%Z) -> lacks lf path -> lacks lf data ->
  expected_in (readlines (script (array_lines z met (Z.of_nat n) s path data))) = Ok (Some (Z.of_nat n)).
Proof.
  intros z met n s path data H N C K P D.
  rewrite readlines_of by (apply array_lines_lf; assumption). unfold array_lines. cbn [app map].
  match goal with |- context [expected_in (_ :: ?x :: _)] => change x with (array_line n (s_limit s)) end.
  match goal with |- expected_in (?a :: ?l) = _ => change (expected_in (a :: l)) with (expected_in l) end.
  apply (expected_array n (s_limit s)); assumption.
Qed.
