(** When two runs of the test binaries count as identical (CompareModel): C190. *)
From Coq Require Import String List Bool ZArith QArith Qabs Permutation Lia Lqa.
From Verif Require Import PyBase PyNum FromRunProofs CompareModel.
Import ListNotations.
Open Scope Q_scope.
Open Scope list_scope.
Open Scope string_scope.

Section P.
Variable show : num -> string.
Variable parse : string -> option num.

(** ** The specification *)

(** Two floats agree within the tolerances; both may be NaN *)
Definition agree (rtol atol : Q) (u v : num) : Prop :=
  match u, v with
  | NaN, NaN | PInf, PInf | MInf, MInf => True
  | Fin x, Fin y => Qabs (x - y) <= atol + rtol * Qabs y
  | _, _ => False
  end.
(** The texts of categories *)
Definition categorical (n : string) : Prop := In n QUALITATIVE_COLUMNS.
Definition cells_agree (rtol atol : Q) (n : string) (numeric : bool) (x y : cell) : Prop :=
  (numeric = true /\ ~ categorical n -> exists u v, number parse x = Ok u /\ number parse y = Ok v /\ agree rtol atol u v) /\
  (numeric = false \/ categorical n -> text show x = text show y).
(** The rows of a binary, in their order *)
Definition history (i : Z) (t : table) : list (string -> cell) := map snd (filter (fun r => Z.eqb (fst r) i) (rows t)).
Definition within {A} (i : Z) (l : list (Z * A)) : Prop := exists a, In (i, a) l.
Definition same_history (rtol atol : Q) (b c : table) (i : Z) : Prop :=
  length (history i b) = length (history i c) /\ (forall n, In n (map fst (columns b)) <-> In n (map fst (columns c))) /\
  forall n numeric k x y, In (n, numeric) (columns b) -> nth_error (history i b) k = Some x -> nth_error (history i c) k = Some y -> cells_agree rtol atol n numeric (x n) (y n).
(** The errors by which a binary may be missing from a table *)
Definition errored (e : option errors) (i : Z) : Prop := exists t, e = Some t /\ e_id t = true /\ within i (e_rows t).
Definition same_evolution (rtol atol : Q) (base cand : file) : Prop :=
  exists b c, evolution base = Some b /\ evolution cand = Some c /\ has_id b = true /\ has_id c = true /\
  (forall i, within i (rows b) -> ~ within i (rows c) -> errored (errs cand) i) /\
  (forall i, within i (rows c) -> ~ within i (rows b) -> errored (errs base) i) /\
  (forall i, within i (rows b) -> within i (rows c) -> same_history rtol atol b c i).
Definition warnings_of (i : Z) (w : warnings) : list (string * string) := map snd (filter (fun r => Z.eqb (fst r) i) (w_rows w)).
Definition same_warnings (b c : option warnings) : Prop :=
  match b, c with
  | None, None => True
  | Some b, Some c => length (w_rows b) = length (w_rows c) /\
      (w_id b = true -> w_id c = true -> forall i, length (warnings_of i b) = length (warnings_of i c) /\
        (w_cat b = true -> w_cat c = true -> Permutation (map fst (warnings_of i b)) (map fst (warnings_of i c))) /\
        (w_msg b = true -> w_msg c = true -> Permutation (map snd (warnings_of i b)) (map snd (warnings_of i c))))
  | _, _ => False
  end.
(** Only the first error of a binary counts *)
Definition first_of (i : Z) (l : list (Z * (string * string))) (x : string * string) : Prop := exists l1 l2, l = (l1 ++ (i, x) :: l2)%list /\ ~ within i l1.
Definition same_errors (b c : option errors) : Prop :=
  match b, c with
  | None, None => True
  | Some b, Some c => e_id b = true -> e_id c = true ->
      (forall i, within i (e_rows b) <-> within i (e_rows c)) /\ (forall i x y, first_of i (e_rows b) x -> first_of i (e_rows c) y -> x = y)
  | _, _ => False
  end.
Definition same_keys (base cand : file) : Prop :=
  forall k, In k ["/evolution"; "/warnings"; "/errors"; "/metadata"] \/ (In k (keys base) <-> In k (keys cand)).

(** ** Lists without reports *)

Lemma app_nil {A} (a b : list A) : (a ++ b)%list = [] <-> a = [] /\ b = [].
Proof. split; [apply app_eq_nil|intros [-> ->]; reflexivity]. Qed.
Lemma filter_nil {A} (f : A -> bool) l : filter f l = [] <-> forall x, In x l -> f x = false.
Proof.
  induction l as [|x l IH]; cbn; [split; [intros _ y []|reflexivity]|]. destruct (f x) eqn:E; split; try discriminate.
  - intros H. now rewrite (H x (or_introl eq_refl)) in E.
  - intros H y [<-|I]; [exact E|now apply IH].
  - intros H. apply IH. intros y I. apply H. now right.
Qed.
Lemma map_nil {A B} (f : A -> B) l : map f l = [] <-> l = [].
Proof. now destruct l. Qed.
Lemma flat_nil {A B} (f : A -> list B) l : flat_map f l = [] <-> forall x, In x l -> f x = [].
Proof.
  induction l as [|x l IH]; cbn; [split; [intros _ y []|reflexivity]|]. rewrite app_nil, IH. split.
  - intros [A1 A2] y [<-|I]; auto.
  - intros H. split; [apply H; now left|intros y I; apply H; now right].
Qed.
Lemma collect_nil l : collect_all l = Ok [] <-> forall x, In x l -> x = Ok [].
Proof.
  induction l as [|x l IH]; cbn [collect_all]; [split; [intros _ y []|reflexivity]|]. split.
  - intros H. apply bind_ok in H as (a & A & H). apply bind_ok in H as (b & B & H). assert (K : (a ++ b)%list = []) by congruence. apply app_nil in K as [-> ->].
    intros y [<-|I]; [exact A|]. now apply IH.
  - intros H. rewrite (H x (or_introl eq_refl)). cbn [rbind]. assert (collect_all l = Ok []) as -> by (apply IH; intros y I; apply H; now right). reflexivity.
Qed.
Lemma zin_within {A} i (l : list (Z * A)) : zin i (nodup Z.eq_dec (map fst l)) = true <-> within i l.
Proof.
  unfold zin. rewrite existsb_exists. split.
  - intros (x & I & E). apply Z.eqb_eq in E as <-. apply nodup_In in I. apply in_map_iff in I as ([j a] & <- & I). now exists a.
  - intros (a & I). exists i. split; [|apply Z.eqb_refl]. apply nodup_In. apply in_map_iff. now exists (i, a).
Qed.
Lemma zin_within' {A} i (l : list (Z * A)) : zin i (map fst l) = true <-> within i l.
Proof.
  unfold zin. rewrite existsb_exists. split.
  - intros (x & I & E). apply Z.eqb_eq in E as <-. apply in_map_iff in I as ([j a] & <- & I). now exists a.
  - intros (a & I). exists i. split; [|apply Z.eqb_refl]. apply in_map_iff. now exists (i, a).
Qed.
Lemma in_nodup {A} i (l : list (Z * A)) : In i (nodup Z.eq_dec (map fst l)) <-> within i l.
Proof. rewrite nodup_In, in_map_iff. split; [intros ([j a] & <- & I); now exists a|intros (a & I); now exists (i, a)]. Qed.
Lemma sin_in x l : sin x l = true <-> In x l.
Proof. unfold sin. rewrite existsb_exists. split; [intros (y & I & E); apply String.eqb_eq in E; now subst|intros I; exists x; split; [exact I|apply String.eqb_refl]]. Qed.

(** ** Columns *)

Lemma numbers_ok l : forall xs, numbers parse l = Ok xs <-> Forall2 (fun c x => number parse c = Ok x) l xs.
Proof.
  induction l as [|c l IH]; intros xs; cbn [numbers].
  - split; [intros H; assert (xs = []) as -> by congruence; constructor|]. intros F. now inversion F.
  - split.
    + intros H. apply bind_ok in H as (x & X & H). apply bind_ok in H as (ys & Y & H). assert (xs = x :: ys) as -> by congruence. constructor; [exact X|]. now apply IH.
    + intros F. inversion F as [|c' x l' ys X Y]; subst. rewrite X. cbn [rbind]. apply IH in Y. now rewrite Y.
Qed.
Lemma neqb_agree u v : is_nan u = false -> is_nan v = false -> (neqb u v = true <-> agree 0 0 u v).
Proof.
  intros U V. destruct u as [| | |x], v as [| | |y]; cbn [neqb close agree is_nan] in *; try discriminate; try (split; [discriminate|now intros []]); try (split; [intros _; exact Logic.I|reflexivity]).
  rewrite Qeq_bool_iff. split.
  - intros E. setoid_replace (x - y) with 0 by (rewrite E; ring). rewrite Qmult_0_l. discriminate.
  - intros H. assert (A := Qle_Qabs (x - y)). assert (B := Qle_Qabs (- (x - y))). rewrite Qabs_opp in B. lra.
Qed.
Lemma close_agree r a u v : is_nan u = false -> is_nan v = false -> (close r a u v = true <-> agree r a u v).
Proof.
  intros U V. destruct u as [| | |x], v as [| | |y]; cbn [neqb close agree is_nan] in *; try discriminate; try (split; [discriminate|now intros []]); try (split; [intros _; exact Logic.I|reflexivity]).
  apply Qle_bool_iff.
Qed.
Lemma agree_zero r a u v : r == 0 -> a == 0 -> (agree r a u v <-> agree 0 0 u v).
Proof. intros R A. destruct u, v; cbn; try reflexivity. now rewrite R, A. Qed.
(** What the comparison of two arrays of numbers reports *)
Definition no_report (r a : Q) (pairs : list (num * num)) : Prop :=
  existsb (fun p => xorb (is_nan (fst p)) (is_nan (snd p))) pairs = false /\
  (if Qeq_bool r 0 && Qeq_bool a 0 then existsb (fun p => negb (neqb (fst p) (snd p))) (filter (fun p => negb (is_nan (fst p) || is_nan (snd p))) pairs)
   else negb (forallb (fun p => close r a (fst p) (snd p)) (filter (fun p => negb (is_nan (fst p) || is_nan (snd p))) pairs))) = false.
Lemma report_agree r a pairs : no_report r a pairs <-> forall u v, In (u, v) pairs -> agree r a u v.
Proof.
  unfold no_report. set (valid := filter _ pairs).
  assert (V : forall u v, In (u, v) valid <-> In (u, v) pairs /\ is_nan u = false /\ is_nan v = false).
  { intros u v. unfold valid. rewrite filter_In. cbn. destruct (is_nan u), (is_nan v); cbn; intuition discriminate. }
  assert (W : (if Qeq_bool r 0 && Qeq_bool a 0 then existsb (fun p => negb (neqb (fst p) (snd p))) valid else negb (forallb (fun p => close r a (fst p) (snd p)) valid)) = false
              <-> forall u v, In (u, v) valid -> agree r a u v).
  { destruct (Qeq_bool r 0 && Qeq_bool a 0) eqn:Z.
    - apply andb_true_iff in Z as [R A]. apply Qeq_bool_iff in R, A. rewrite <- not_true_iff_false, existsb_exists. split.
      + intros H u v I. apply (agree_zero r a u v R A). assert (VI := proj1 (V u v) I). destruct VI as (_ & U & VV). apply (neqb_agree u v U VV).
        destruct (neqb u v) eqn:E; [reflexivity|]. destruct H. exists (u, v). split; [exact I|]. cbn. now rewrite E.
      + intros H ((u & v) & I & E). cbn in E. assert (VI := proj1 (V u v) I). destruct VI as (_ & U & VV).
        assert (K := proj2 (neqb_agree u v U VV) (proj1 (agree_zero r a u v R A) (H u v I))). now rewrite K in E.
    - rewrite negb_false_iff, forallb_forall. split.
      + intros H u v I. assert (VI := proj1 (V u v) I). destruct VI as (_ & U & VV). apply (close_agree r a u v U VV). exact (H (u, v) I).
      + intros H (u & v) I. cbn. assert (VI := proj1 (V u v) I). destruct VI as (_ & U & VV). apply (close_agree r a u v U VV). now apply H. }
  rewrite W. rewrite <- not_true_iff_false, existsb_exists. split.
  - intros [N H] u v I. destruct (is_nan u) eqn:U, (is_nan v) eqn:VV.
    + destruct u, v; try discriminate. exact Logic.I.
    + destruct N. exists (u, v). split; [exact I|]. cbn. now rewrite U, VV.
    + destruct N. exists (u, v). split; [exact I|]. cbn. now rewrite U, VV.
    + apply H. apply V. now repeat split.
  - intros H. split.
    + intros ((u & v) & I & X). specialize (H u v I). cbn in X. destruct u, v; cbn in *; try discriminate; contradiction.
    + intros u v I. apply H. now apply V.
Qed.
Lemma classify n numeric : classify_column n numeric = true <-> numeric = true /\ ~ categorical n.
Proof.
  unfold classify_column, categorical. assert (S := sin_in n QUALITATIVE_COLUMNS). unfold sin in S. destruct (existsb (String.eqb n) QUALITATIVE_COLUMNS).
  - split; [discriminate|]. intros [_ K]. destruct K. now apply S.
  - split; [|tauto]. intros ->. split; [reflexivity|]. intros K. apply S in K. discriminate.
Qed.
Lemma firstn_eq {A} (l : list A) n : length l = n -> firstn n l = l.
Proof. intros <-. apply firstn_all. Qed.
Lemma combine_nth_in {A B} (a : list A) : forall (b : list B) u v, In (u, v) (combine a b) <-> exists k, nth_error a k = Some u /\ nth_error b k = Some v.
Proof.
  induction a as [|x a IH]; intros b u v; [split; [intros []|intros ([|k] & H & _); discriminate]|]. destruct b as [|y b]; [split; [intros []|intros ([|k] & _ & H); discriminate]|].
  cbn [combine]. split.
  - intros [E|I]; [exists 0%nat; split; cbn; congruence|]. apply IH in I as (k & K1 & K2). now exists (S k).
  - intros ([|k] & K1 & K2); cbn in *; [left; congruence|right; apply IH; now exists k].
Qed.
Lemma Forall2_nth {A B} (R : A -> B -> Prop) l m : Forall2 R l m -> forall k x, nth_error l k = Some x -> exists y, nth_error m k = Some y /\ R x y.
Proof. induction 1 as [|x y l m H F IH]; intros [|k] z N; cbn in *; try discriminate; [assert (z = x) as -> by congruence; now exists y|now apply IH]. Qed.
Lemma Forall2_nth' {A B} (R : A -> B -> Prop) l m : Forall2 R l m -> forall k y, nth_error m k = Some y -> exists x, nth_error l k = Some x /\ R x y.
Proof. induction 1 as [|x y l m H F IH]; intros [|k] z N; cbn in *; try discriminate; [assert (z = y) as -> by congruence; now exists x|now apply IH]. Qed.
Lemma numbers_total l : (forall c, In c l -> exists x, number parse c = Ok x) -> exists xs, numbers parse l = Ok xs.
Proof.
  induction l as [|c l IH]; intros H; [now exists []|]. destruct (H c (or_introl eq_refl)) as (x & X). destruct IH as (xs & XS); [intros d I; apply H; now right|].
  exists (x :: xs). cbn. now rewrite X, XS.
Qed.
Lemma column_nil r a i n numeric (b c : list (string -> cell)) : length b = length c ->
  (compare_column show parse r a i n numeric b c = Ok [] <->
   forall k x y, nth_error b k = Some x -> nth_error c k = Some y -> cells_agree r a n numeric (x n) (y n)).
Proof.
  intros L. unfold compare_column. rewrite <- L, Nat.min_id, firstn_all, (firstn_eq c (length b)) by congruence.
  destruct (classify_column n numeric) eqn:C.
  - apply classify in C. split.
    + intros H. apply bind_ok in H as (ba & B & H). apply bind_ok in H as (ca & CA & H). cbv zeta in H.
      assert (NR : no_report r a (combine ba ca)).
      { unfold no_report. destruct (existsb _ (combine ba ca)); [discriminate|]. split; [reflexivity|]. match goal with |- ?X = false => destruct X end; [discriminate|reflexivity]. }
      apply numbers_ok in B, CA. intros k x y X Y. split; [intros _|intros [K|K]; destruct C; congruence].
      destruct (Forall2_nth _ _ _ B k (x n)) as (u & U & NU); [now rewrite nth_error_map, X|].
      destruct (Forall2_nth _ _ _ CA k (y n)) as (v & V & NV); [now rewrite nth_error_map, Y|].
      exists u, v. split; [exact NU|]. split; [exact NV|]. apply (proj1 (report_agree r a _) NR). apply combine_nth_in. now exists k.
    + intros H.
      assert (BT : exists ba, numbers parse (map (fun r => r n) b) = Ok ba).
      { apply numbers_total. intros z I. apply in_map_iff in I as (x & <- & I). apply In_nth_error in I as (k & X). destruct (nth_error c k) as [y|] eqn:Y.
        - destruct (H k x y X Y) as [H1 _]. destruct (H1 C) as (u & v & U & _). now exists u.
        - apply nth_error_None in Y. assert (k < length b)%nat by (apply nth_error_Some; congruence). lia. }
      assert (CT : exists ca, numbers parse (map (fun r => r n) c) = Ok ca).
      { apply numbers_total. intros z I. apply in_map_iff in I as (y & <- & I). apply In_nth_error in I as (k & Y). destruct (nth_error b k) as [x|] eqn:X.
        - destruct (H k x y X Y) as [H1 _]. destruct (H1 C) as (u & v & _ & V & _). now exists v.
        - apply nth_error_None in X. assert (k < length c)%nat by (apply nth_error_Some; congruence). lia. }
      destruct BT as (ba & B), CT as (ca & CA). rewrite B, CA. cbn [rbind]. cbv zeta.
      assert (NR : no_report r a (combine ba ca)).
      { apply report_agree. intros u v I. apply combine_nth_in in I as (k & U & V). apply numbers_ok in B, CA.
        destruct (Forall2_nth' _ _ _ B k u U) as (x' & X & NX). destruct (Forall2_nth' _ _ _ CA k v V) as (y' & Y & NY).
        rewrite nth_error_map in X, Y. destruct (nth_error b k) as [x|] eqn:BX; [|discriminate]. destruct (nth_error c k) as [y|] eqn:CY; [|discriminate]. cbn in X, Y.
        destruct (H k x y BX CY) as [H1 _]. destruct (H1 C) as (u' & v' & U' & V' & AG). congruence. }
      destruct NR as [N1 N2]. rewrite N1, N2. reflexivity.
  - assert (C' : numeric = false \/ categorical n).
    { destruct numeric; [right|now left]. assert (K := classify n true). destruct (in_dec string_dec n QUALITATIVE_COLUMNS) as [I|I]; [exact I|]. rewrite C in K. destruct K as [_ K]. discriminate K. now split. }
    set (cb := combine _ _). assert (W : forallb (fun p => String.eqb (text show (fst p)) (text show (snd p))) cb = true <-> forall k x y, nth_error b k = Some x -> nth_error c k = Some y -> cells_agree r a n numeric (x n) (y n)).
    { rewrite forallb_forall. split.
      - intros H k x y X Y. split.
        + intros [K1 K2]. destruct C' as [C'|C']; [congruence|contradiction].
        + intros _. assert (I : In (x n, y n) cb) by (apply combine_nth_in; exists k; now rewrite !nth_error_map, X, Y). apply H in I. now apply String.eqb_eq in I.
      - intros H (x' & y') I. apply combine_nth_in in I as (k & X & Y). rewrite nth_error_map in X, Y.
        destruct (nth_error b k) as [x|] eqn:BX; [|discriminate]. destruct (nth_error c k) as [y|] eqn:CY; [|discriminate]. cbn in X, Y.
        destruct (H k x y BX CY) as [_ H2]. apply String.eqb_eq. cbn. assert (x' = x n /\ y' = y n) as [-> ->] by (split; congruence). now apply H2. }
    rewrite <- W. destruct (forallb _ cb); split; congruence.
Qed.

(** ** Binaries and tables *)
Lemma binary_nil r a b c i : compare_binary show parse r a b c i = Ok [] <-> same_history r a b c i.
Proof.
  unfold compare_binary, same_history. change (of_binary i b) with (history i b). change (of_binary i c) with (history i c).
  assert (BO : filter (fun n => negb (sin n (names c))) (names b) = [] <-> forall n, In n (names b) -> In n (names c)).
  { rewrite filter_nil. split; intros H n I; specialize (H n I); [apply negb_false_iff in H; now apply sin_in|apply negb_false_iff; now apply sin_in]. }
  assert (CO : filter (fun n => negb (sin n (names b))) (names c) = [] <-> forall n, In n (names c) -> In n (names b)).
  { rewrite filter_nil. split; intros H n I; specialize (H n I); [apply negb_false_iff in H; now apply sin_in|apply negb_false_iff; now apply sin_in]. }
  split.
  - intros H. apply bind_ok in H as (d & D & H). assert (K : forall x : list diff, Ok x = Ok [] -> x = []) by congruence. apply K in H. clear K.
    apply app_nil in H as [H1 H]. apply app_nil in H as [H2 H]. apply app_nil in H as [H3 ->].
    destruct (Nat.eqb_spec (length (history i b)) (length (history i c))) as [L|]; [|discriminate].
    assert (B := proj1 BO ltac:(destruct (filter _ (names b)); [reflexivity|discriminate])). assert (C := proj1 CO ltac:(destruct (filter _ (names c)); [reflexivity|discriminate])).
    split; [exact L|]. split; [intros n; split; [apply B|apply C]|]. intros n numeric k x y I X Y.
    apply (proj1 (column_nil r a i n numeric (history i b) (history i c) L)) with k; [|exact X|exact Y].
    apply (proj1 (collect_nil _) D). apply in_map_iff. exists (n, numeric). split; [reflexivity|]. apply filter_In. split; [exact I|]. apply sin_in. apply B. apply in_map_iff. now exists (n, numeric).
  - intros (L & N & H). rewrite (proj2 (Nat.eqb_eq _ _) L). rewrite (proj2 BO) by (intros n; apply N). rewrite (proj2 CO) by (intros n; apply N).
    rewrite (proj2 (collect_nil _)); [reflexivity|]. intros x I. apply in_map_iff in I as ((n & numeric) & <- & I). apply filter_In in I as [I _]. cbn [fst snd].
    apply (column_nil r a i n numeric _ _ L). intros k u v U V. now apply (H n numeric k u v).
Qed.
Lemma errored_ids e i : zin i (error_ids e) = true <-> errored e i.
Proof.
  unfold error_ids, errored. destruct e as [e|]; [|split; [discriminate|intros (t & H & _); discriminate]]. destruct (e_id e) eqn:E.
  - rewrite zin_within'. split; [intros W; now exists e|]. intros (t & H & _ & W). assert (t = e) as -> by congruence. exact W.
  - split; [discriminate|]. intros (t & H & K & _). congruence.
Qed.
Lemma evolution_nil r a b c eb ec : compare_evolution show parse r a b c (error_ids eb) (error_ids ec) = Ok [] <->
  has_id b = true /\ has_id c = true /\ (forall i, within i (rows b) -> ~ within i (rows c) -> errored ec i) /\
  (forall i, within i (rows c) -> ~ within i (rows b) -> errored eb i) /\ (forall i, within i (rows b) -> within i (rows c) -> same_history r a b c i).
Proof.
  unfold compare_evolution. destruct (has_id b), (has_id c); cbn [andb]; try (split; [discriminate|intros (? & ? & _); discriminate]). unfold ids.
  assert (M : forall (x y : table) e, filter (fun i => negb (zin i (nodup Z.eq_dec (map fst (rows y)))) && negb (zin i (error_ids e))) (nodup Z.eq_dec (map fst (rows x))) = [] <->
                (forall i, within i (rows x) -> ~ within i (rows y) -> errored e i)).
  { intros x y e. rewrite filter_nil. split.
    - intros H i W N. apply in_nodup in W. specialize (H i W). apply andb_false_iff in H as [H|H]; apply negb_false_iff in H; [destruct N; now apply zin_within|now apply errored_ids].
    - intros H i W. apply in_nodup in W. destruct (zin i (nodup Z.eq_dec (map fst (rows y)))) eqn:Z; [reflexivity|]. cbn. apply negb_false_iff. apply errored_ids. apply H; [exact W|].
      intros K. apply zin_within in K. congruence. }
  assert (S : (forall x, In x (map (compare_binary show parse r a b c) (filter (fun i => zin i (nodup Z.eq_dec (map fst (rows c)))) (nodup Z.eq_dec (map fst (rows b))))) -> x = Ok []) <->
              (forall i, within i (rows b) -> within i (rows c) -> same_history r a b c i)).
  { split.
    - intros H i B C. apply binary_nil. apply H. apply in_map_iff. exists i. split; [reflexivity|]. apply filter_In. split; [now apply in_nodup|now apply zin_within].
    - intros H x I. apply in_map_iff in I as (i & <- & I). apply filter_In in I as [B C]. apply binary_nil. apply H; [now apply in_nodup|now apply zin_within in C]. }
  split.
  - intros H. apply bind_ok in H as (d & D & H). assert (K : forall x : list diff, Ok x = Ok [] -> x = []) by congruence. apply K in H. clear K.
    apply app_nil in H as [H1 H]. apply app_nil in H as [H2 ->]. apply map_nil in H1, H2. split; [reflexivity|]. split; [reflexivity|].
    split; [now apply M|]. split; [now apply M|]. apply S. now apply collect_nil.
  - intros (_ & _ & H1 & H2 & H3). apply M in H1, H2. assert (H4 := proj2 (collect_nil _) (proj2 S H3)). rewrite H4. cbn [rbind]. now rewrite H1, H2.
Qed.

(** ** Warnings and errors *)
Lemma count_occ_eq x l : count x l = count_occ string_dec l x.
Proof. unfold count. induction l as [|y l IH]; [reflexivity|]. cbn. destruct (string_dec y x) as [->|N]; [now rewrite String.eqb_refl; cbn; rewrite IH|]. destruct (String.eqb_spec x y); [congruence|exact IH]. Qed.
Lemma sorted_perm a b : same_sorted a b = true <-> Permutation a b.
Proof.
  unfold same_sorted. rewrite forallb_forall, (Permutation_count_occ string_dec). split.
  - intros H x. rewrite <- !count_occ_eq. destruct (in_dec string_dec x (a ++ b)) as [I|N]; [now apply Nat.eqb_eq, H|].
    rewrite !count_occ_eq. assert (~ In x a /\ ~ In x b) as [NA NB] by (split; intros K; apply N; apply in_or_app; auto).
    now rewrite (proj1 (count_occ_not_In _ _ _) NA), (proj1 (count_occ_not_In _ _ _) NB).
  - intros H x _. apply Nat.eqb_eq. rewrite !count_occ_eq. apply H.
Qed.
Lemma not_warned i w : ~ within i (w_rows w) -> warnings_of i w = [].
Proof.
  intros N. unfold warnings_of. apply map_nil, filter_nil. intros [j x] I. cbn. apply Z.eqb_neq. intros ->. apply N. now exists x.
Qed.
Lemma warnings_nil b c : compare_warnings b c = [] <-> same_warnings b c.
Proof.
  unfold compare_warnings, same_warnings. destruct b as [b|], c as [c|]; try (split; [discriminate|now intros []]); [|split; auto].
  rewrite app_nil. assert (L : (if Nat.eqb (length (w_rows b)) (length (w_rows c)) then [] else [WarnCount]) = [] <-> length (w_rows b) = length (w_rows c)).
  { destruct (Nat.eqb_spec (length (w_rows b)) (length (w_rows c))); split; auto; discriminate || contradiction. }
  rewrite L. apply and_iff_compat_l. destruct (w_id b) eqn:IB; cbn [andb]; [|split; [intros _ K; discriminate|reflexivity]].
  destruct (w_id c) eqn:IC; [|split; [intros _ _ K; discriminate|reflexivity]]. rewrite flat_nil.
  change (fun id => warned id b) with (fun id => warnings_of id b).
  assert (ONE : forall i, match length (warnings_of i b), length (warnings_of i c) with
            | O, O => [] | O, _ => [WarnNew i] | _, O => [WarnRemoved i]
            | n, m => if Nat.eqb n m then
                  ((if w_cat b && w_cat c then (if same_sorted (map fst (warnings_of i b)) (map fst (warnings_of i c)) then [] else [WarnCategories i]) else []) ++
                  (if w_msg b && w_msg c then (if same_sorted (map snd (warnings_of i b)) (map snd (warnings_of i c)) then [] else [WarnMessages i]) else []))%list
                else [WarnNumber i] end = [] <->
      length (warnings_of i b) = length (warnings_of i c) /\
        (w_cat b = true -> w_cat c = true -> Permutation (map fst (warnings_of i b)) (map fst (warnings_of i c))) /\
        (w_msg b = true -> w_msg c = true -> Permutation (map snd (warnings_of i b)) (map snd (warnings_of i c)))).
  { intros i. destruct (length (warnings_of i b)) as [|n] eqn:LB, (length (warnings_of i c)) as [|m] eqn:LC.
    - apply length_zero_iff_nil in LB, LC. rewrite LB, LC. cbn. split; [repeat split; constructor|reflexivity].
    - split; [discriminate|intros [K _]; discriminate].
    - split; [discriminate|intros [K _]; discriminate].
    - destruct (Nat.eqb_spec (S n) (S m)) as [E|N]; [|split; [discriminate|intros [K _]; contradiction]]. rewrite app_nil. rewrite <- !sorted_perm.
      destruct (w_cat b), (w_cat c), (w_msg b), (w_msg c), (same_sorted (map fst (warnings_of i b)) (map fst (warnings_of i c))), (same_sorted (map snd (warnings_of i b)) (map snd (warnings_of i c)));
        cbn; intuition (try discriminate; auto). }
  split.
  - intros H _ _ i. destruct (in_dec Z.eq_dec i (map fst (w_rows b) ++ map fst (w_rows c))) as [I|N].
    + apply ONE. apply H. now apply nodup_In.
    + assert (NW : forall w : warnings, ~ In i (map fst (w_rows w)) -> warnings_of i w = []) by (intros w K; apply not_warned; intros (x & X); apply K; apply in_map_iff; now exists (i, x)).
      rewrite (NW b), (NW c) by (intros K; apply N; apply in_or_app; auto). repeat split; constructor.
  - intros H i _. apply ONE. now apply H.
Qed.
Lemma first_spec i l x : option_map snd (find (fun r : Z * (string * string) => Z.eqb (fst r) i) l) = Some x <-> first_of i l x.
Proof.
  induction l as [|(j & y) l IH]; cbn.
  - split; [discriminate|]. intros (l1 & l2 & E & _). now destruct l1.
  - destruct (Z.eqb_spec j i) as [->|N].
    + cbn. split; [intros H; exists [], l; split; [cbn; congruence|now intros (z & [])]|]. intros (l1 & l2 & E & W). destruct l1 as [|p l1]; [cbn in E; congruence|]. exfalso. apply W.
      exists y. left. cbn in E. congruence.
    + rewrite IH. split.
      * intros (l1 & l2 & -> & W). exists ((j, y) :: l1), l2. split; [reflexivity|]. intros (z & [Z|Z]); [congruence|apply W; now exists z].
      * intros (l1 & l2 & E & W). destruct l1 as [|p l1]; [cbn in E; congruence|]. cbn in E. exists l1, l2. split; [congruence|]. intros (z & Z). apply W. exists z. now right.
Qed.
Lemma has_first i l : within i l -> exists x, option_map snd (find (fun r : Z * (string * string) => Z.eqb (fst r) i) l) = Some x.
Proof.
  intros (a & I). destruct (find (fun r : Z * (string * string) => Z.eqb (fst r) i) l) as [p|] eqn:F; [now exists (snd p)|].
  apply (find_none _ _ F) in I. cbn in I. now rewrite Z.eqb_refl in I.
Qed.
Lemma first_within i l x : first_of i l x -> within i l.
Proof. intros (l1 & l2 & -> & _). exists x. apply in_or_app. right. now left. Qed.
Lemma errors_nil b c : compare_errors b c = [] <-> same_errors b c.
Proof.
  unfold compare_errors, same_errors. destruct b as [b|], c as [c|]; try (split; [discriminate|now intros []]); [|split; auto].
  destruct (e_id b); cbn [andb]; [|split; [intros _ K; discriminate|reflexivity]]. destruct (e_id c); [|split; [intros _ _ K; discriminate|reflexivity]].
  rewrite !app_nil, !map_nil, !filter_nil, flat_nil. unfold first_error. split.
  - intros (H1 & H2 & H3) _ _. split.
    + intros i. split; intros W; apply in_nodup in W.
      * specialize (H2 i W). apply negb_false_iff in H2. now apply zin_within in H2.
      * specialize (H1 i W). apply negb_false_iff in H1. now apply zin_within in H1.
    + intros i x y X Y. assert (K : In i (filter (fun i => zin i (nodup Z.eq_dec (map fst (e_rows c)))) (nodup Z.eq_dec (map fst (e_rows b))))).
      { apply filter_In. split; [apply in_nodup; now apply first_within in X|apply zin_within; now apply first_within in Y]. }
      specialize (H3 i K). apply first_spec in X, Y. rewrite X, Y in H3. destruct x as [t m], y as [t' m']. apply app_nil in H3 as [H3 H4].
      destruct (String.eqb_spec t t'); [|discriminate]. destruct (String.eqb_spec m m'); [congruence|discriminate].
  - intros H. destruct (H eq_refl eq_refl) as [W F]. repeat split.
    + intros i I. apply in_nodup in I. apply negb_false_iff. apply zin_within. now apply W.
    + intros i I. apply in_nodup in I. apply negb_false_iff. apply zin_within. now apply W.
    + intros i I. apply filter_In in I as [I J]. apply in_nodup in I. apply zin_within in J. destruct (has_first i _ I) as ((t & m) & X), (has_first i _ J) as ((t' & m') & Y).
      rewrite X, Y. assert (E : (t, m) = (t', m')) by (apply (F i); now apply first_spec). assert (t = t' /\ m = m') as [-> ->] by (split; congruence). now rewrite !String.eqb_refl.
Qed.
Lemma keys_nil b c : compare_keys b c = [] <-> same_keys b c.
Proof.
  unfold compare_keys, same_keys. rewrite app_nil, !map_nil, !filter_nil. change ["/evolution"; "/warnings"; "/errors"; "/metadata"] with ignored_keys. split.
  - intros [H1 H2] k. destruct (in_dec string_dec k ignored_keys) as [I|N]; [now left|right]. assert (NI : sin k ignored_keys = false) by (destruct (sin k ignored_keys) eqn:E; [now apply sin_in in E|reflexivity]).
    split; intros I; [specialize (H1 k I)|specialize (H2 k I)]; rewrite NI, andb_true_r in *; [apply negb_false_iff in H1; now apply sin_in|apply negb_false_iff in H2; now apply sin_in].
  - intros H. split; intros k I; destruct (H k) as [K|K]; try (apply sin_in in K; rewrite K; apply andb_false_r).
    + apply K in I. apply sin_in in I. now rewrite I.
    + apply K in I. apply sin_in in I. now rewrite I.
Qed.

(** ** C190 *)
Theorem C190 : forall rtol atol base cand,
  main show parse rtol atol base cand = 0%Z <->
  same_evolution rtol atol base cand /\ same_warnings (warns base) (warns cand) /\ same_errors (errs base) (errs cand) /\ same_keys base cand.
Proof.
  intros r a base cand. rewrite <- warnings_nil, <- errors_nil, <- keys_nil.
  transitivity (all_diffs show parse r a base cand = Ok []).
  { unfold main. destruct (all_diffs show parse r a base cand) as [[|d l]|e]; split; try reflexivity; discriminate. }
  unfold all_diffs, same_evolution. split.
  - intros H. apply bind_ok in H as (d & D & H). assert (K : forall x : list diff, Ok x = Ok [] -> x = []) by congruence. apply K in H. clear K.
    apply app_nil in H as [-> H]. apply app_nil in H as [H1 H]. apply app_nil in H as [H2 H3]. split; [|now repeat split].
    destruct (evolution base) as [b|]; [|destruct (evolution cand); discriminate]. destruct (evolution cand) as [c|]; [|discriminate]. apply evolution_nil in D.
    destruct D as (B & C & D). exists b, c. split; [reflexivity|]. split; [reflexivity|]. split; [exact B|]. split; [exact C|]. exact D.
  - intros ((b & c & -> & -> & B & C & D) & -> & -> & ->). rewrite (proj2 (evolution_nil r a b c (errs base) (errs cand))); [reflexivity|]. split; [exact B|]. now split.
Qed.

(** A file is identical to itself if it has a table of the evolution with the numbers of binaries, and the columns of numbers hold numbers *)
Theorem C190_self : forall rtol atol f t, 0 <= rtol -> 0 <= atol -> evolution f = Some t -> has_id t = true ->
  (forall n x r, In (n, true) (columns t) -> In (x, r) (rows t) -> exists u, number parse (r n) = Ok u) -> main show parse rtol atol f f = 0%Z.
Proof.
  intros rtol atol f t R A E ID NUM. apply C190. split; [|split; [|split]].
  - exists t, t. split; [exact E|]. split; [exact E|]. split; [exact ID|]. split; [exact ID|]. split; [intros i W N; contradiction|]. split; [intros i W N; contradiction|].
    intros i _ _. split; [reflexivity|]. split; [reflexivity|]. intros n numeric k x y I X Y. assert (y = x) as -> by congruence. split; [|reflexivity].
    intros [-> _]. apply nth_error_In in X. apply in_map_iff in X as ((j & r) & <- & X). apply filter_In in X as [X _]. destruct (NUM n j r I X) as (u & U). exists u, u.
    split; [exact U|]. split; [exact U|]. destruct u as [| | |q]; cbn [agree]; try exact Logic.I. assert (Z : Qabs (q - q) == 0) by (setoid_replace (q - q) with 0 by ring; reflexivity). rewrite Z.
    assert (P : 0 <= rtol * Qabs q) by (apply Qmult_le_0_compat; [exact R|apply Qabs_nonneg]). lra.
  - unfold same_warnings. destruct (warns f) as [w|]; [|exact Logic.I]. split; [reflexivity|]. intros _ _ i. repeat split; reflexivity.
  - unfold same_errors. destruct (errs f) as [e|]; [|exact Logic.I]. intros _ _. split; [reflexivity|]. intros i x y X Y. apply first_spec in X, Y. congruence.
  - intros k. right. reflexivity.
Qed.
(** Without tolerances numbers are the same, NaN included *)
Theorem C190_exact : forall base cand b c i n x y k, main show parse 0 0 base cand = 0%Z -> evolution base = Some b -> evolution cand = Some c ->
  In (n, true) (columns b) -> ~ categorical n -> nth_error (history i b) k = Some x -> nth_error (history i c) k = Some y ->
  exists u v, number parse (x n) = Ok u /\ number parse (y n) = Ok v /\
    match u, v with NaN, NaN | PInf, PInf | MInf, MInf => True | Fin p, Fin q => p == q | _, _ => False end.
Proof.
  intros base cand b c i n x y k H EB EC I NC X Y. apply C190 in H as ((b' & c' & B & C & _ & _ & _ & _ & H) & _). assert (b' = b /\ c' = c) as [-> ->] by (split; congruence).
  assert (WI : forall t z, nth_error (history i t) k = Some z -> within i (rows t)).
  { intros t z N. apply nth_error_In in N. apply in_map_iff in N as ((j & r) & _ & N). apply filter_In in N as [N E]. apply Z.eqb_eq in E. cbn in E. subst j. now exists r. }
  destruct (H i (WI b x X) (WI c y Y)) as (_ & _ & K). destruct (K n true k x y I X Y) as [K1 _]. destruct (K1 (conj eq_refl NC)) as (u & v & U & V & AG).
  exists u, v. split; [exact U|]. split; [exact V|]. destruct u as [| | |p], v as [| | |q]; try exact AG. cbn [agree] in AG. rewrite Qmult_0_l in AG.
  assert (A := Qle_Qabs (p - q)). assert (B' := Qle_Qabs (- (p - q))). rewrite Qabs_opp in B'. lra.
Qed.
End P.

(** ** Concrete files *)
Definition shown (x : num) : string := match x with NaN => "nan" | MInf => "-inf" | PInf => "inf" | Fin q => if Qeq_bool q 0 then "0.0" else "1.0" end.
Definition parsed (s : string) : option num := if String.eqb s "1.0" then Some (Fin 1) else None.
Definition row (state : cell) (mass : num) (c : string) : cell := if String.eqb c "S1_state" then state else CNum mass.
Definition cols : list (string * bool) := [("S1_state", false); ("S1_mass", true)].
Definition run (l : list (Z * (string -> cell))) (w : option warnings) (e : option errors) : file := File ["/evolution"; "/metadata"] (Some (Table true cols l)) w e.
Definition cmp := main shown parsed.

Example same_run : cmp 0 0 (run [(1, row (CStr "H-rich") (Fin 10)); (1, row (CStr "BH") NaN); (2, row (CStr "NS") (Fin 1))]%Z None None)
                           (run [(2, row (CStr "NS") (Fin 1)); (1, row (CStr "H-rich") (Fin 10)); (1, row (CStr "BH") NaN)]%Z None None) = 0%Z.
Proof. reflexivity. Qed.
Example other_mass : cmp 0 0 (run [(1, row (CStr "H-rich") (Fin 10))]%Z None None) (run [(1, row (CStr "H-rich") (Fin (11 # 1)))]%Z None None) = 1%Z.
Proof. reflexivity. Qed.
Example other_nan : cmp 0 0 (run [(1, row (CStr "H-rich") (Fin 10))]%Z None None) (run [(1, row (CStr "H-rich") NaN)]%Z None None) = 1%Z.
Proof. reflexivity. Qed.
Example lost_binary : cmp 0 0 (run [(1, row (CStr "H-rich") (Fin 10))]%Z None None) (run [] None None) = 1%Z.
Proof. reflexivity. Qed.
(** A text among the numbers of the candidate is an error, not a difference *)
Example text_in_numbers : cmp 0 0 (run [(1, row (CStr "BH") (Fin 10))]%Z None None)
  (File ["/evolution"] (Some (Table true cols [(1, fun _ => CStr "lost")%Z])) None None) = 2%Z.
Proof. reflexivity. Qed.

(** "Identical runs have the same binaries" is false: a binary which has an error in both runs may be missing from the table of the candidate *)
Theorem C190_binaries_refuted : ~ (forall base cand b c i, cmp 0 0 base cand = 0%Z -> evolution base = Some b -> evolution cand = Some c -> within i (rows b) -> within i (rows c)).
Proof.
  intros H. pose (e := Some (Errors true [(1%Z, ("FlowError", "lost"))])).
  destruct (H (run [(1, row (CStr "BH") (Fin 10))]%Z None e) (run [] None e) _ _ 1%Z eq_refl eq_refl eq_refl) as (a & []). exists (row (CStr "BH") (Fin 10)). now left.
Qed.
(** "Identical runs have the same states" is false: None is the same as the text "None" *)
Theorem C190_none_refuted : ~ (forall base cand b c i k x y n, cmp 0 0 base cand = 0%Z -> evolution base = Some b -> evolution cand = Some c ->
  In (n, false) (columns b) -> nth_error (history i b) k = Some x -> nth_error (history i c) k = Some y -> x n = y n).
Proof.
  intros H. specialize (H (run [(1, row CNone (Fin 10))]%Z None None) (run [(1, row (CStr "None") (Fin 10))]%Z None None) _ _ 1%Z 0%nat _ _ "S1_state" eq_refl eq_refl eq_refl (or_introl eq_refl) eq_refl eq_refl).
  discriminate H.
Qed.
(** "Identical runs have the same warnings" is false: which message has which category is not compared; nor are the second and later errors of a binary *)
Theorem C190_warnings_refuted : ~ (forall base cand b c i, cmp 0 0 base cand = 0%Z -> warns base = Some b -> warns cand = Some c -> Permutation (warnings_of i b) (warnings_of i c)).
Proof.
  intros H. pose (w l := Some (Warnings true true true l)).
  assert (K := H (run [] (w [(1, ("A", "x")); (1, ("B", "y"))]%Z) None) (run [] (w [(1, ("A", "y")); (1, ("B", "x"))]%Z) None) _ _ 1%Z eq_refl eq_refl eq_refl). cbn in K.
  assert (I : In ("A", "x") [("A", "y"); ("B", "x")]) by (apply (Permutation_in _ K); now left). destruct I as [I|[I|[]]]; discriminate.
Qed.
Theorem C190_errors_refuted : ~ (forall base cand b c, cmp 0 0 base cand = 0%Z -> errs base = Some b -> errs cand = Some c -> Permutation (e_rows b) (e_rows c)).
Proof.
  intros H. pose (e l := Some (Errors true l)).
  assert (K := H (run [] None (e [(1, ("FlowError", "x"))]%Z)) (run [] None (e [(1, ("FlowError", "x")); (1, ("ValueError", "y"))]%Z)) _ _ eq_refl eq_refl eq_refl). apply Permutation_length in K. discriminate K.
Qed.

Print Assumptions C190.
Print Assumptions C190_self.
Print Assumptions C190_exact.
Print Assumptions C190_binaries_refuted.
Print Assumptions C190_none_refuted.
Print Assumptions C190_warnings_refuted.
Print Assumptions C190_errors_refuted.
