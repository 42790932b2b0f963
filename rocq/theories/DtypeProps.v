(** C41. *)
From Coq Require Import String List Bool Lia Ascii.
From Verif Require Import PyBase PyStr PyReplace DtypeModel.
Import ListNotations.
Open Scope string_scope.
Open Scope list_scope.

(** ** Specification *)
(** The type a column is stored with if its quantity is declared as [t]. *)
Definition on_disk (t : string) : string := if String.eqb t "string" then "object" else t.
(** A name the code can strip: none of the four marks occurs in it or where it follows "_". *)
Definition clean_name (q : string) : Prop :=
  forall p, In p ["_i"; "_f"; "S1_"; "S2_"] -> py_in p ("_" ++ q) = false.

(** ** Proofs *)
Lemma none_starts_in : forall p a, py_in p a = false -> none_starts p a "" = true.
Proof.
  intros p. induction a as [|c a IH]; intro H; [reflexivity|]. cbn [py_in] in H. apply orb_false_iff in H. destruct H as [P H].
  cbn [none_starts]. rewrite app_nil_s, P, IH by exact H. reflexivity.
Qed.
Lemma replace_nothing : forall p s, p <> "" -> py_in p s = false -> py_replace p "" s = s.
Proof.
  intros p s N H. rewrite <- (app_nil_s s) at 1. rewrite replace_nomatch by (apply none_starts_in; exact H).
  cbn. apply app_nil_s.
Qed.
(** A mark of two characters cannot reach over the end of a name into "_i" or "_f". *)
Lemma none_starts_two : forall x s rest, x <> "_"%char -> py_in (String "_" (String x "")) s = false ->
  none_starts (String "_" (String x "")) s (String "_" rest) = true.
Proof.
  intros x s rest X. induction s as [|c s IH]; intro H; [reflexivity|]. cbn [py_in] in H. apply orb_false_iff in H. destruct H as [P H].
  cbn [none_starts]. rewrite IH by exact H. rewrite andb_true_r. apply negb_true_iff.
  cbn [prefix append] in *. destruct (ascii_dec "_" c); [|reflexivity]. destruct s as [|d s]; cbn [append prefix] in *.
  - destruct (ascii_dec x "_"); [congruence | reflexivity].
  - destruct (ascii_dec x d); [|reflexivity]. destruct s; exact P.
Qed.
Lemma py_in_two_end : forall x y s, x <> "_"%char -> x <> y -> py_in (String "_" (String x "")) s = false ->
  py_in (String "_" (String x "")) (s ++ String "_" (String y "")) = false.
Proof.
  intros x y s X Y. induction s as [|c s IH]; intro H.
  - cbn [append py_in prefix]. destruct (ascii_dec "_" "_"); [|congruence]. destruct (ascii_dec x y); [congruence|].
    destruct (ascii_dec "_" y); reflexivity.
  - cbn [py_in] in H. apply orb_false_iff in H. destruct H as [P H]. cbn [append py_in]. rewrite IH by exact H. rewrite orb_false_r.
    cbn [prefix] in *. destruct (ascii_dec "_" c); [|reflexivity]. destruct s as [|d s]; cbn [append prefix] in *.
    + destruct (ascii_dec x "_"); [congruence | reflexivity].
    + destruct (ascii_dec x d); [|reflexivity]. destruct s; exact P.
Qed.
Lemma strip_ends : forall w t, py_in "_i" w = false -> py_in "_f" w = false -> In t ["_i"; "_f"] ->
  py_replace "_f" "" (py_replace "_i" "" (w ++ t)) = w.
Proof.
  intros w t I F [<- |[<- |[]]].
  - rewrite replace_nomatch by (apply none_starts_two; [discriminate | exact I]).
    change (py_replace "_i" "" "_i") with "". rewrite app_nil_s. apply replace_nothing; [discriminate | exact F].
  - rewrite (replace_nothing "_i") by (first [discriminate | apply py_in_two_end; [discriminate | discriminate | exact I]]).
    rewrite replace_nomatch by (apply none_starts_two; [discriminate | exact F]).
    change (py_replace "_f" "" "_f") with "". apply app_nil_s.
Qed.

Lemma py_in_tail : forall p c q, py_in p (String c q) = false -> py_in p q = false.
Proof. intros p c q H. cbn [py_in] in H. apply orb_false_iff in H. tauto. Qed.

Lemma strip_column : forall pre q t, In pre [""; "S1_"; "S2_"] -> clean_name q -> In t ["_i"; "_f"] ->
  strip (pre ++ q ++ t) = q.
Proof.
  intros pre q t P C T. unfold strip. rewrite <- app_assoc_s.
  assert (forall p, In p ["_i"; "_f"; "S1_"; "S2_"] -> py_in p q = false) as Q
    by (intros p I; apply (py_in_tail _ "_"%char); apply C; exact I).
  assert (py_in "_i" (pre ++ q) = false /\ py_in "_f" (pre ++ q) = false) as [I F].
  { pose proof (C "_i" ltac:(cbn [In]; tauto)) as C1. pose proof (C "_f" ltac:(cbn [In]; tauto)) as C2.
    pose proof (Q "_i" ltac:(cbn [In]; tauto)). pose proof (Q "_f" ltac:(cbn [In]; tauto)).
    destruct P as [<- |[<- |[<- |[]]]]; cbn [append]; [split; assumption| |];
      cbn [append] in C1, C2; split;
      match goal with |- py_in ?p _ = false =>
        change (py_in p (String "_" q) = false); assumption end. }
  rewrite strip_ends by assumption.
  pose proof (Q "S1_" ltac:(cbn [In]; tauto)) as Q1. pose proof (Q "S2_" ltac:(cbn [In]; tauto)) as Q2.
  destruct P as [<- |[<- |[<- |[]]]].
  - cbn [append]. rewrite (replace_nothing "S1_") by (discriminate || assumption). apply replace_nothing; [discriminate | assumption].
  - rewrite replace_match by discriminate. cbn [append]. rewrite (replace_nothing "S1_") by (discriminate || assumption).
    apply replace_nothing; [discriminate | assumption].
  - rewrite (replace_nothing "S1_") by (first [discriminate | change (py_in "S1_" q = false); assumption]).
    rewrite replace_match by discriminate. cbn [append]. apply replace_nothing; [discriminate | assumption].
Qed.

Lemma in_ends : forall p l q t, In q l -> In t ["_i"; "_f"] -> inb String.eqb (p ++ q ++ t)%string (ends p l) = true.
Proof.
  intros p l q t Q T. destruct (inb_spec String.eqb_spec (p ++ q ++ t)%string (ends p l)) as [|N]; [reflexivity|].
  exfalso. apply N. unfold ends. apply in_or_app. destruct T as [<- |[<- |[]]]; [left | right]; apply in_map_iff; exists q; split; tauto.
Qed.
Lemma declared_in : forall (d : list (string * string)) q t, dget String.eqb d q = Some t -> In q (dkeys d).
Proof. intros d q t G. apply (dget_Some_in String.eqb_spec) in G. apply (in_map fst) in G. exact G. Qed.

Section User.
  Variables (xb x1 x2 : list (string * string)).
  (** C41: a column of a declared quantity with a clean name is stored with the declared type: q_i and
      q_f for the binary, S1_q_i, ... for the stars, unless a scalar or binary column of the same name
      goes first; scalar columns always. *)
  Definition scalar_column (c : string) : Prop := exists q t, In (q, t) scalar_dtypes /\ (c = "S1_" ++ q \/ c = "S2_" ++ q)%string.
  Definition binary_column (c : string) : Prop :=
    exists q e, In q (dkeys (binary_all xb)) /\ In e ["_i"; "_f"] /\ c = (q ++ e)%string.
  Lemma scalar_mem : forall c, inb String.eqb c (map (append "S1_") (dkeys scalar_dtypes) ++ map (append "S2_") (dkeys scalar_dtypes)) = true ->
    scalar_column c.
  Proof using Type.
    intros c H. destruct (inb_spec String.eqb_spec c (map (append "S1_") (dkeys scalar_dtypes) ++ map (append "S2_") (dkeys scalar_dtypes))) as [I|]; [|discriminate].
    apply in_app_or in I. destruct I as [I|I]; apply in_map_iff in I; destruct I as [q [E I]]; apply in_map_iff in I; destruct I as [[q' t] [Q I]];
      cbn [fst] in Q; subst q'; exists q, t; split; try exact I; [left | right]; congruence.
  Qed.
  Lemma binary_mem : forall c, inb String.eqb c (ends "" (dkeys (binary_all xb))) = true -> binary_column c.
  Proof using Type.
    intros c H. destruct (inb_spec String.eqb_spec c (ends "" (dkeys (binary_all xb)))) as [I|]; [|discriminate].
    apply in_app_or in I. destruct I as [I|I]; apply in_map_iff in I; destruct I as [q [E I]]; cbn [append] in E; exists q; eexists; (split; [exact I|]);
      (split; [|symmetry; exact E]); cbn [In]; tauto.
  Qed.

  Theorem oneline_binary : forall q t e, dget String.eqb (binary_all xb) q = Some t -> clean_name q -> In e ["_i"; "_f"] ->
    ~ scalar_column (q ++ e) -> oneline_column xb x1 x2 (q ++ e) = Stored (on_disk t).
  Proof using Type.
    intros q t e G C E NS. unfold oneline_column, oneline_dtype.
    destruct (inb String.eqb (q ++ e)%string (map (append "S1_") (dkeys scalar_dtypes) ++ map (append "S2_") (dkeys scalar_dtypes))) eqn:M;
      [exfalso; apply NS; apply scalar_mem; exact M|].
    pose proof (in_ends "" _ q e (declared_in _ _ _ G) E) as I. cbn [append] in I. rewrite I.
    pose proof (strip_column "" q e ltac:(cbn [In]; tauto) C E) as S. cbn [append] in S. rewrite S, G. reflexivity.
  Qed.
  Theorem oneline_star_1 : forall q t e, dget String.eqb (oneline_star x1) q = Some t -> clean_name q -> In e ["_i"; "_f"] ->
    ~ scalar_column ("S1_" ++ q ++ e) -> ~ binary_column ("S1_" ++ q ++ e) ->
    oneline_column xb x1 x2 ("S1_" ++ q ++ e) = Stored (on_disk t).
  Proof using Type.
    intros q t e G C E NS NB. unfold oneline_column, oneline_dtype. set (c := ("S1_" ++ q ++ e)%string) in *.
    destruct (inb String.eqb c (map (append "S1_") (dkeys scalar_dtypes) ++ map (append "S2_") (dkeys scalar_dtypes))) eqn:M;
      [exfalso; apply NS; apply scalar_mem; exact M|].
    destruct (inb String.eqb c (ends "" (dkeys (binary_all xb)))) eqn:B; [exfalso; apply NB; apply binary_mem; exact B|].
    unfold c. rewrite (in_ends "S1_" _ q e (declared_in _ _ _ G) E).
    rewrite (strip_column "S1_" q e) by (try assumption; cbn [In]; tauto). rewrite G. reflexivity.
  Qed.
  Theorem oneline_star_2 : forall q t e, dget String.eqb (oneline_star x2) q = Some t -> clean_name q -> In e ["_i"; "_f"] ->
    ~ scalar_column ("S2_" ++ q ++ e) -> ~ binary_column ("S2_" ++ q ++ e) ->
    oneline_column xb x1 x2 ("S2_" ++ q ++ e) = Stored (on_disk t).
  Proof using Type.
    intros q t e G C E NS NB. unfold oneline_column, oneline_dtype. set (c := ("S2_" ++ q ++ e)%string) in *.
    destruct (inb String.eqb c (map (append "S1_") (dkeys scalar_dtypes) ++ map (append "S2_") (dkeys scalar_dtypes))) eqn:M;
      [exfalso; apply NS; apply scalar_mem; exact M|].
    destruct (inb String.eqb c (ends "" (dkeys (binary_all xb)))) eqn:B; [exfalso; apply NB; apply binary_mem; exact B|].
    destruct (inb String.eqb c (ends "S1_" (dkeys (oneline_star x1)))) eqn:S1.
    { exfalso. destruct (inb_spec String.eqb_spec c (ends "S1_" (dkeys (oneline_star x1)))) as [I|]; [|discriminate].
      apply in_app_or in I. destruct I as [I|I]; apply in_map_iff in I; destruct I as [q' [EQ _]]; unfold c in EQ; cbn [append] in EQ; discriminate. }
    unfold c. rewrite (in_ends "S2_" _ q e (declared_in _ _ _ G) E).
    rewrite (strip_column "S2_" q e) by (try assumption; cbn [In]; tauto). rewrite G. reflexivity.
  Qed.
  Theorem oneline_scalar : forall q t, In (q, t) scalar_dtypes ->
    oneline_column xb x1 x2 ("S1_" ++ q) = Stored (on_disk t) /\ oneline_column xb x1 x2 ("S2_" ++ q) = Stored (on_disk t).
  Proof using Type.
    intros q t I.
    assert (forallb (fun e => match oneline_dtype [] [] [] ("S1_" ++ fst e), oneline_dtype [] [] [] ("S2_" ++ fst e) with
       | Some a, Some b => String.eqb a (snd e) && String.eqb b (snd e) | _, _ => false end &&
       (inb String.eqb ("S1_" ++ fst e)%string (map (append "S1_") (dkeys scalar_dtypes) ++ map (append "S2_") (dkeys scalar_dtypes)) &&
        inb String.eqb ("S2_" ++ fst e)%string (map (append "S1_") (dkeys scalar_dtypes) ++ map (append "S2_") (dkeys scalar_dtypes))))
       scalar_dtypes = true) as H by (vm_compute; reflexivity).
    rewrite forallb_forall in H. specialize (H _ I). cbn [fst snd] in H. apply andb_true_iff in H. destruct H as [H M].
    apply andb_true_iff in M. destruct M as [M1 M2]. unfold oneline_column, oneline_dtype in *. rewrite M1, M2 in *.
    destruct (dget String.eqb scalar_dtypes (py_replace "S2_" "" (py_replace "S1_" "" ("S1_" ++ q)))) as [a|]; [|discriminate].
    destruct (dget String.eqb scalar_dtypes (py_replace "S2_" "" (py_replace "S1_" "" ("S2_" ++ q)))) as [b|]; [|discriminate].
    apply andb_true_iff in H. destruct H as [A B]. apply String.eqb_eq in A, B. subst. split; reflexivity.
  Qed.

  (** Columns of history tables: the declared type for every binary quantity and for star quantities
      without "S1_" and "S2_" in their names. *)
  Theorem history_declared : 
    (forall q t, dget String.eqb (binary_all xb) q = Some t -> history_column xb x1 x2 q = Stored (on_disk t)) /\
    (forall q t, dget String.eqb (history_star x1) q = Some t -> py_in "S1_" q = false ->
       dget String.eqb (binary_all xb) ("S1_" ++ q)%string = None -> history_column xb x1 x2 ("S1_" ++ q) = Stored (on_disk t)) /\
    (forall q t, dget String.eqb (history_star x2) q = Some t -> py_in "S2_" q = false ->
       dget String.eqb (binary_all xb) ("S2_" ++ q)%string = None -> history_column xb x1 x2 ("S2_" ++ q) = Stored (on_disk t)) /\
    (forall c, dget String.eqb (binary_all xb) c = None ->
       (forall q, c = ("S1_" ++ q)%string -> dget String.eqb (history_star x1) q = None) ->
       (forall q, c = ("S2_" ++ q)%string -> dget String.eqb (history_star x2) q = None) -> history_column xb x1 x2 c = AsInferred).
  Proof using Type.
    assert (forall (d : list (string * string)) c, inb String.eqb c (dkeys d) = match dget String.eqb d c with Some _ => true | None => false end) as M.
    { intros d c. destruct (inb_spec String.eqb_spec c (dkeys d)) as [I|N].
      - destruct (dget String.eqb d c) eqn:G; [reflexivity|]. apply (dget_None_notin String.eqb_spec) in G. tauto.
      - apply (dget_None_notin String.eqb_spec) in N. rewrite N. reflexivity. }
    assert (forall p (d : list (string * string)) c, inb String.eqb c (map (append p) (dkeys d)) = true <-> exists q, c = (p ++ q)%string /\ dget String.eqb d q <> None) as MP.
    { intros p d c. destruct (inb_spec String.eqb_spec c (map (append p) (dkeys d))) as [I|N]; split; try discriminate; try reflexivity.
      - intros _. apply in_map_iff in I. destruct I as [q [E I]]. exists q. split; [congruence|]. intro G.
        apply (dget_None_notin String.eqb_spec) in G. tauto.
      - intros [q [-> G]]. exfalso. apply N. apply in_map. destruct (inb_spec String.eqb_spec q (dkeys d)) as [I|F]; [exact I|].
        apply (dget_None_notin String.eqb_spec) in F. congruence. }
    unfold history_column, history_dtype. split; [|split; [|split]].
    - intros q t G. rewrite M, G. reflexivity.
    - intros q t G N B. rewrite M, B.
      assert (inb String.eqb ("S1_" ++ q)%string (map (append "S1_") (dkeys (history_star x1))) = true) as I
        by (apply MP; exists q; split; [reflexivity | congruence]).
      rewrite I, replace_match by discriminate. rewrite replace_nothing by (discriminate || assumption).
      change ("" ++ q)%string with q. rewrite G. reflexivity.
    - intros q t G N B. rewrite M, B.
      destruct (inb String.eqb ("S2_" ++ q)%string (map (append "S1_") (dkeys (history_star x1)))) eqn:F;
        [apply MP in F; destruct F as [q' [E _]]; cbn [append] in E; discriminate|].
      assert (inb String.eqb ("S2_" ++ q)%string (map (append "S2_") (dkeys (history_star x2))) = true) as I
        by (apply MP; exists q; split; [reflexivity | congruence]).
      rewrite I, replace_match by discriminate. rewrite replace_nothing by (discriminate || assumption).
      change ("" ++ q)%string with q. rewrite G. reflexivity.
    - intros c B H1 H2. rewrite M, B.
      destruct (inb String.eqb c (map (append "S1_") (dkeys (history_star x1)))) eqn:F1;
        [apply MP in F1; destruct F1 as [q [E G]]; exfalso; apply G; apply H1; exact E|].
      destruct (inb String.eqb c (map (append "S2_") (dkeys (history_star x2)))) eqn:F2;
        [apply MP in F2; destruct F2 as [q [E G]]; exfalso; apply G; apply H2; exact E|]. reflexivity.
  Qed.
End User.
Print Assumptions oneline_binary.
Print Assumptions oneline_star_1.
Print Assumptions oneline_star_2.
Print Assumptions oneline_scalar.
Print Assumptions history_declared.

(** C41: the quantities declared by default.  Of the binary columns exactly that of binary_index has no
    type; of the star columns exactly those of five quantities have none. *)
Definition unclean : list string :=
  ["avg_c_in_c_core"; "total_moment_of_inertia"; "mass_conv_reg_fortides"; "thickness_conv_reg_fortides"; "radius_conv_reg_fortides"].
Theorem oneline_default_refuted :
  (forall q t e, In (q, t) (binary_dtypes ++ extra_binary_dtypes) -> In e ["_i"; "_f"] ->
     oneline_column [] [] [] (q ++ e) = if String.eqb q "binary_index" then AsInferred else Stored (on_disk t)) /\
  (forall q t e s, In (q, t) (star_dtypes ++ extra_star_dtypes) -> In e ["_i"; "_f"] -> In s ["S1_"; "S2_"] ->
     oneline_column [] [] [] (s ++ q ++ e) = if inb String.eqb q unclean then AsInferred else Stored (on_disk t)).
Proof.
  set (eqs := fun a b => match a, b with AsInferred, AsInferred => true | Stored x, Stored y => String.eqb x y | _, _ => false end).
  assert (forall a b, eqs a b = true -> a = b) as EQ.
  { intros [|x] [|y] H; cbn in H; try discriminate; [reflexivity|]. apply String.eqb_eq in H. congruence. }
  split.
  - assert (forallb (fun x => forallb (fun e => eqs (oneline_column [] [] [] (fst x ++ e)) (if String.eqb (fst x) "binary_index" then AsInferred else Stored (on_disk (snd x)))) ["_i"; "_f"])
      (binary_dtypes ++ extra_binary_dtypes) = true) as H by (vm_compute; reflexivity).
    intros q t e Q E. rewrite forallb_forall in H. specialize (H _ Q). rewrite forallb_forall in H. apply EQ. apply (H e E).
  - assert (forallb (fun x => forallb (fun e => forallb (fun s => eqs (oneline_column [] [] [] (s ++ fst x ++ e))
        (if inb String.eqb (fst x) unclean then AsInferred else Stored (on_disk (snd x)))) ["S1_"; "S2_"]) ["_i"; "_f"])
      (star_dtypes ++ extra_star_dtypes) = true) as H by (vm_compute; reflexivity).
    intros q t e s Q E S. rewrite forallb_forall in H. specialize (H _ Q). rewrite forallb_forall in H. specialize (H e E).
    rewrite forallb_forall in H. apply EQ. apply (H s S).
Qed.
Print Assumptions oneline_default_refuted.

(** By default all columns of history tables have their types. *)
Theorem history_default :
  (forall q t, In (q, t) (binary_dtypes ++ extra_binary_dtypes) -> history_column [] [] [] q = Stored (on_disk t)) /\
  (forall q t s, In (q, t) (star_dtypes ++ extra_star_dtypes) -> In s ["S1_"; "S2_"] -> history_column [] [] [] (s ++ q) = Stored (on_disk t)).
Proof.
  set (eqs := fun a b => match a, b with AsInferred, AsInferred => true | Stored x, Stored y => String.eqb x y | _, _ => false end).
  assert (forall a b, eqs a b = true -> a = b) as EQ.
  { intros [|x] [|y] H; cbn in H; try discriminate; [reflexivity|]. apply String.eqb_eq in H. congruence. }
  split.
  - assert (forallb (fun x => eqs (history_column [] [] [] (fst x)) (Stored (on_disk (snd x)))) (binary_dtypes ++ extra_binary_dtypes) = true) as H by (vm_compute; reflexivity).
    intros q t Q. rewrite forallb_forall in H. apply EQ. apply (H _ Q).
  - assert (forallb (fun x => forallb (fun s => eqs (history_column [] [] [] (s ++ fst x)) (Stored (on_disk (snd x)))) ["S1_"; "S2_"])
      (star_dtypes ++ extra_star_dtypes) = true) as H by (vm_compute; reflexivity).
    intros q t s Q S. rewrite forallb_forall in H. specialize (H _ Q). rewrite forallb_forall in H. apply EQ. apply (H s S).
Qed.
Print Assumptions history_default.

(** A user's own columns: one type declared per column is used, but not for a name the code strips;
    there even the type of another quantity may be taken. *)
Example oneline_user_case :
  clean_name "my_kind" /\ ~ scalar_column "S1_my_kind_i" /\ ~ binary_column [] "S1_my_kind_i" /\
  oneline_column [] [("my_kind", "bool")] [] "S1_my_kind_i" = Stored "bool".
Proof.
  split; [|split; [|split; [|vm_compute; reflexivity]]].
  - intros p P. cbn [In] in P. destruct P as [<- |[<- |[<- |[<- |[]]]]]; reflexivity.
  - intros [q [t [I [E|E]]]]; [|discriminate]. cbn [append] in E. assert (q = "my_kind_i") as -> by congruence.
    apply (dget_in_nodup String.eqb_spec) in I; [vm_compute in I; discriminate|].
    unfold dkeys, scalar_dtypes. cbn [map fst]. repeat constructor; cbn [In]; intuition discriminate.
  - intros [q [e [I [E C]]]]. unfold binary_all, dset_all, dkeys in I. vm_compute in I.
    cbn [In] in E. repeat (destruct I as [<- |I]; [destruct E as [<- |[<- |[]]]; discriminate C|]). destruct I.
Qed.
Theorem oneline_user_refuted :
  oneline_column [("mass_in_disk", "float64")] [] [] "mass_in_disk_f" = AsInferred /\
  oneline_column [("state_index", "int64"); ("statendex", "bool")] [] [] "state_index_f" = Stored "bool".
Proof. vm_compute. split; reflexivity. Qed.
Print Assumptions oneline_user_refuted.
