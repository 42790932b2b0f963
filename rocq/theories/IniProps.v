(** C42, C58. *)
From Coq Require Import String Ascii List Bool ZArith Lia FinFun DecimalString DecimalZ DecimalPos.
From Verif Require Import PyBase PyStr PyReplace IniModel.
Import ListNotations.
Open Scope string_scope.
Open Scope nat_scope.
Open Scope list_scope.

(** ** Numbers as text *)
Lemma decimal_inj : forall a b, decimal a = decimal b -> a = b.
Proof.
  assert (forall z, Z.to_int z <> Decimal.Pos Decimal.Nil /\ Z.to_int z <> Decimal.Neg Decimal.Nil) as N.
  { intros [|p|p]; split; try discriminate; unfold Z.to_int; intro H.
    - assert (Pos.to_uint p = Decimal.Nil) as E by congruence. exact (DecimalPos.Unsigned.to_uint_nonnil p E).
    - assert (Pos.to_uint p = Decimal.Nil) as E by congruence. exact (DecimalPos.Unsigned.to_uint_nonnil p E). }
  intros a b H. unfold decimal in H. pose proof (NilZero.isi _ (proj1 (N (Z.of_nat a))) (proj2 (N (Z.of_nat a)))) as A.
  pose proof (NilZero.isi _ (proj1 (N (Z.of_nat b))) (proj2 (N (Z.of_nat b)))) as B. rewrite H, B in A.
  assert (Z.to_int (Z.of_nat b) = Z.to_int (Z.of_nat a)) as E by congruence.
  assert (Z.of_nat a = Z.of_nat b) by (rewrite <- (DecimalZ.of_to (Z.of_nat a)), <- (DecimalZ.of_to (Z.of_nat b)); congruence). lia.
Qed.
Lemma digits_lack : forall d, lacks "_"%char (NilEmpty.string_of_uint d).
Proof. induction d; cbn; repeat split; try discriminate; assumption. Qed.
Lemma decimal_lacks : forall h, lacks "_"%char (decimal h).
Proof.
  intro h. unfold decimal. destruct h as [|h]; [cbn; repeat split; discriminate|]. cbn [Z.of_nat Z.to_int].
  unfold NilZero.string_of_int, NilZero.string_of_uint.
  pose proof (DecimalPos.Unsigned.to_uint_nonnil (Pos.of_succ_nat h)) as N.
  pose proof (digits_lack (Pos.to_uint (Pos.of_succ_nat h))) as L.
  destruct (Pos.to_uint (Pos.of_succ_nat h)); [congruence | exact L ..].
Qed.
Lemma last_part_lacks : forall b acc, lacks "_"%char b -> last_part b acc = (acc ++ b)%string.
Proof.
  induction b as [|c b IH]; intros acc L; [cbn; rewrite app_nil_s; reflexivity|]. destruct L as [C L]. cbn [last_part].
  destruct (Ascii.eqb_spec c "_"); [congruence|]. rewrite IH by exact L. rewrite app_assoc_s. reflexivity.
Qed.
Lemma last_part_sep : forall a b acc, last_part (a ++ String "_" b) acc = last_part b "".
Proof. induction a as [|c a IH]; intros b acc; [reflexivity|]. cbn [append last_part]. apply IH. Qed.

(** ** Hooks: specification *)
(** The kinds of lines a hook may have. *)
Definition line_kinds : list string := ["import_"; "absolute_import_"; "kwargs_"].
Section Hooks.
  Variable C : Type.
  Variable import_hook : lit -> option lit -> result C.
  Variable to_int : string -> option Z.
  Hypothesis to_int_decimal : forall h, to_int (decimal h) = Some (Z.of_nat h).

  Variable sect : list (string * lit).
  Hypothesis distinct : NoDup (dkeys sect).
  (** Every line without "extra" in its name belongs to a hook, and every hook has its import line. *)
  Hypothesis lines : forall n, In n (dkeys sect) -> py_in "extra" n = false ->
    exists p h, In p line_kinds /\ 1 <= h /\ n = (p ++ decimal h)%string.
  Hypothesis imported : forall p h, In p line_kinds -> In (p ++ decimal h)%string (dkeys sect) -> In ("import_" ++ decimal h)%string (dkeys sect).
  Variable cls : nat -> C.
  Hypothesis classes : forall h i, get sect ("import_" ++ decimal h)%string = Some i ->
    import_hook i (get sect ("absolute_import_" ++ decimal h)%string) = Ok (cls h).

  Definition is_hook (h : nat) : bool := match get sect ("import_" ++ decimal h)%string with Some _ => true | None => false end.
  Definition hook_kwargs (h : nat) : lit := match get sect ("kwargs_" ++ decimal h)%string with Some v => v | None => LDict [] end.
  Definition hook_names : list string := filter (fun n => negb (py_in "extra" n)) (dkeys sect).

  Lemma line_inj : forall p q a b, In p line_kinds -> In q line_kinds -> (p ++ decimal a = q ++ decimal b)%string -> p = q /\ a = b.
  Proof using Type.
    intros p q a b P Q E.
    destruct P as [<- |[<- |[<- |[]]]]; destruct Q as [<- |[<- |[<- |[]]]]; cbn [append] in E;
      try discriminate; (split; [reflexivity | apply decimal_inj; congruence]).
  Qed.
  Lemma line_index : forall p h, In p line_kinds -> to_int (last_part (p ++ decimal h) "") = Some (Z.of_nat h).
  Proof using to_int_decimal.
    intros p h P. assert (exists a, p = (a ++ "_")%string) as [a ->].
    { destruct P as [<- |[<- |[<- |[]]]]; [exists "import" | exists "absolute_import" | exists "kwargs"]; reflexivity. }
    rewrite app_assoc_s. cbn [append]. rewrite last_part_sep, last_part_lacks by apply decimal_lacks. apply to_int_decimal.
  Qed.
  Lemma get_without : forall A (d : list (string * A)) k k', k' <> k -> get (without d k) k' = get d k'.
  Proof using Type.
    intros A d k k' N. induction d as [|[a v] d IH]; [reflexivity|]. cbn [without]. destruct (String.eqb_spec k a) as [-> |NE]; cbn [dget].
    - destruct (String.eqb_spec k' a); [congruence | reflexivity].
    - rewrite IH. reflexivity.
  Qed.

  Lemma indexed_exact : forall h names, (forall n, In n names -> exists p k, In p line_kinds /\ n = (p ++ decimal k)%string) ->
    exists valid, indexed to_int names h = Ok valid /\
      (valid = [] <-> forall p, In p line_kinds -> ~ In (p ++ decimal h)%string names).
  Proof using to_int_decimal.
    intros h. induction names as [|n names IH]; intro W.
    - exists []. split; [reflexivity|]. split; [intros _ p _ [] | reflexivity].
    - destruct (W n (or_introl eq_refl)) as [p [k [P E]]].
      destruct (IH (fun m M => W m (or_intror M))) as [v [V1 V2]]. cbn [indexed]. rewrite E, line_index by exact P.
      rewrite V1. cbn [rbind]. eexists. split; [reflexivity|].
      destruct (Z.eqb_spec (Z.of_nat k) (Z.of_nat h)) as [KH|KH].
      + split; [discriminate|]. intro H. exfalso. apply (H p P). left. assert (k = h) by lia. congruence.
      + rewrite V2. split; intros H q Q.
        * intros [X|X]; [|exact (H q Q X)]. symmetry in X. destruct (line_inj q p h k Q P ltac:(congruence)). subst. lia.
        * intro X. apply (H q Q). right. exact X.
  Qed.

  Lemma names_lines : forall n, In n hook_names -> exists p k, In p line_kinds /\ 1 <= k /\ n = (p ++ decimal k)%string.
  Proof using lines.
    intros n N. apply filter_In in N. destruct N as [N X]. apply negb_true_iff in X. exact (lines n N X).
  Qed.
  Lemma no_extra : forall p h, In p line_kinds -> py_in "extra" (p ++ decimal h) = false.
  Proof using Type.
    intros p h P. apply not_true_iff_false. intro H. apply py_in_iff in H. destruct H as [a [b E]].
    assert (lacks "x"%char (p ++ decimal h)) as L.
    { assert (lacks "x"%char (decimal h)) as D.
      { clear. unfold decimal. assert (forall d, lacks "x"%char (NilEmpty.string_of_uint d)) as DL by (induction d; cbn; repeat split; try discriminate; assumption).
        destruct h as [|h]; [cbn; repeat split; discriminate|]. cbn [Z.of_nat Z.to_int]. unfold NilZero.string_of_int, NilZero.string_of_uint.
        pose proof (DecimalPos.Unsigned.to_uint_nonnil (Pos.of_succ_nat h)) as N. specialize (DL (Pos.to_uint (Pos.of_succ_nat h))).
        destruct (Pos.to_uint (Pos.of_succ_nat h)); [congruence | exact DL ..]. }
      destruct P as [<- |[<- |[<- |[]]]]; cbn; repeat split; try discriminate; exact D. }
    rewrite E in L. clear - L. induction a as [|c a IH]; [cbn in L; tauto|]. apply IH. cbn [append lacks] in L. tauto.
  Qed.
  Lemma in_names : forall p h, In p line_kinds -> (In (p ++ decimal h)%string hook_names <-> get sect (p ++ decimal h)%string <> None).
  Proof using Type.
    intros p h P. unfold hook_names. rewrite filter_In, no_extra by exact P. cbn [negb]. split.
    - intros [I _] G. apply (dget_None_notin String.eqb_spec) in G. tauto.
    - intro G. split; [|reflexivity]. destruct (inb_spec String.eqb_spec (p ++ decimal h)%string (dkeys sect)) as [I|N]; [exact I|].
      apply (dget_None_notin String.eqb_spec) in N. congruence.
  Qed.
  Lemma valid_hook : forall h, (forall p, In p line_kinds -> ~ In (p ++ decimal h)%string hook_names) <-> is_hook h = false.
  Proof using imported.
    intro h. unfold is_hook. split.
    - intro H. destruct (get sect ("import_" ++ decimal h)%string) eqn:G; [|reflexivity]. exfalso.
      apply (H "import_"); [cbn [line_kinds In]; tauto|]. apply in_names; [cbn [line_kinds In]; tauto | congruence].
    - intros H p P I. apply filter_In in I. destruct I as [I _]. apply (imported p h P) in I.
      destruct (get sect ("import_" ++ decimal h)%string) eqn:G; [discriminate|]. apply (dget_None_notin String.eqb_spec) in G. tauto.
  Qed.

  (** What is still there before round h. *)
  Definition remaining (h : nat) (s : list (string * lit)) : Prop :=
    forall p k, In p line_kinds -> h <= k -> get s (p ++ decimal k)%string = get sect (p ++ decimal k)%string.
  Lemma rounds_exact : forall n h s acc, remaining h s ->
    exists s', hook_rounds _ import_hook to_int hook_names (seq h n) (s, acc) =
      Ok (s', acc ++ map (fun h => (cls h, hook_kwargs h)) (filter is_hook (seq h n))).
  Proof using to_int_decimal lines imported classes.
    induction n as [|n IH]; intros h s acc R.
    - exists s. cbn. rewrite app_nil_r. reflexivity.
    - cbn [seq hook_rounds filter]. unfold hook_round.
      destruct (indexed_exact h hook_names) as [v [V1 V2]].
      { intros m M. destruct (names_lines m M) as [p [k [P [_ E]]]]. eauto. }
      rewrite valid_hook in V2. rewrite V1. cbn [rbind]. destruct (is_hook h) eqn:IS.
      + destruct v as [|x v]; [destruct V2 as [V2 _]; specialize (V2 eq_refl); discriminate|].
        assert (In "import_" line_kinds /\ In "absolute_import_" line_kinds /\ In "kwargs_" line_kinds) as [P1 [P2 P3]] by (cbn [line_kinds In]; tauto).
        assert (forall p q, In p line_kinds -> In q line_kinds -> p <> q -> forall a b, (p ++ decimal a)%string <> (q ++ decimal b)%string) as NE.
        { intros p q P Q PQ a b E. destruct (line_inj p q a b P Q E). congruence. }
        rewrite (R "import_" h P1 (Nat.le_refl _)). unfold is_hook in IS.
        destruct (get sect ("import_" ++ decimal h)%string) as [i|] eqn:GI; [|discriminate].
        rewrite (get_without _ s) by (apply NE; try assumption; discriminate).
        rewrite (R "absolute_import_" h P2 (Nat.le_refl _)).
        rewrite (get_without _ (without s _)) by (apply NE; try assumption; discriminate).
        rewrite (get_without _ s) by (apply NE; try assumption; discriminate).
        rewrite (R "kwargs_" h P3 (Nat.le_refl _)). rewrite (classes h i GI). cbn [rbind].
        destruct (IH (S h) (without (without (without s ("import_" ++ decimal h)%string) ("absolute_import_" ++ decimal h)%string) ("kwargs_" ++ decimal h)%string)
                    (acc ++ [(cls h, hook_kwargs h)])) as [s' E].
        { intros p k P K. assert (forall q, In q line_kinds -> (p ++ decimal k)%string <> (q ++ decimal h)%string) as D.
          { intros q Q X. destruct (line_inj p q k h P Q X). lia. }
          rewrite !get_without by (apply D; assumption). apply R; [exact P | lia]. }
        exists s'. unfold hook_kwargs at 1 in E. rewrite E. cbn [map]. rewrite <- app_assoc. reflexivity.
      + assert (v = []) as -> by (apply V2; reflexivity). apply IH. intros p k P K. apply R; [exact P | lia].
  Qed.

  (** C42: the hooks loaded are those with an index smaller than the number of lines, in order. *)
  Theorem hooks_exact : exists s', load_hooks _ import_hook to_int sect =
    Ok (s', map (fun h => (cls h, hook_kwargs h)) (filter is_hook (seq 1 (length hook_names - 1)))).
  Proof using to_int_decimal lines imported classes.
    unfold load_hooks. fold hook_names. destruct (rounds_exact (length hook_names - 1) 1 sect []) as [s' E].
    - intros p k _ _. reflexivity.
    - exists s'. exact E.
  Qed.

  (** C42: hooks numbered 1 to k are all loaded if any of them has a further line; if there are only
      import lines the last one is left out. *)
  Theorem hooks_numbered : forall k, (forall h, is_hook h = true <-> 1 <= h <= k) ->
    let further := exists p h, In p ["absolute_import_"; "kwargs_"] /\ get sect (p ++ decimal h)%string <> None in
    exists s' l, load_hooks _ import_hook to_int sect = Ok (s', map (fun h => (cls h, hook_kwargs h)) l) /\
      (further -> l = seq 1 k) /\ (~ further -> l = seq 1 (k - 1)).
  Proof using to_int_decimal lines imported classes distinct.
    intros k K further. destruct hooks_exact as [s' E]. exists s'. eexists. split; [exact E|].
    assert (NoDup hook_names) as ND by (apply NoDup_filter; exact distinct).
    set (imports := map (fun h => ("import_" ++ decimal h)%string) (seq 1 k)).
    assert (NoDup imports) as NI.
    { unfold imports. apply Injective_map_NoDup; [|apply seq_NoDup]. intros a b X. cbn [append] in X. apply decimal_inj. congruence. }
    assert (incl imports hook_names) as INC.
    { intros x X. unfold imports in X. apply in_map_iff in X. destruct X as [h [<- H]]. apply in_seq in H.
      apply in_names; [cbn [line_kinds In]; tauto|]. assert (is_hook h = true) as IH by (apply K; lia). unfold is_hook in IH.
      destruct (get sect ("import_" ++ decimal h)%string); [discriminate | discriminate]. }
    assert (length imports = k) as LI by (unfold imports; rewrite map_length, seq_length; reflexivity).
    assert (forall n m, filter is_hook (seq (S m) n) = seq (S m) (Nat.min n (k - m))) as FS.
    { induction n as [|n IH]; intro m; [reflexivity|]. cbn [seq filter]. destruct (is_hook (S m)) eqn:H.
      - apply K in H. rewrite IH. replace (Nat.min (S n) (k - m)) with (S (Nat.min n (k - S m))) by lia. reflexivity.
      - assert (k - m = 0). { destruct (k - m) eqn:D; [reflexivity|]. assert (is_hook (S m) = true) by (apply K; lia). congruence. }
        rewrite IH. replace (Nat.min (S n) (k - m)) with 0 by lia. replace (Nat.min n (k - S m)) with 0 by lia. reflexivity. }
    rewrite FS. rewrite Nat.sub_0_r. split.
    - intros [p [h [P G]]]. assert (length hook_names >= S k) as L.
      { assert (NoDup ((p ++ decimal h)%string :: imports)) as ND2.
        { constructor; [|exact NI]. unfold imports. rewrite in_map_iff. intros [h' [X _]].
          destruct P as [<- |[<- |[]]]; cbn [append] in X; discriminate. }
        apply NoDup_incl_length with (l' := hook_names) in ND2; [cbn [length] in ND2; lia|].
        intros x [<- |X]; [|apply INC; exact X]. apply in_names; [|exact G]. cbn [In line_kinds] in *; tauto. }
      f_equal. lia.
    - intro NF. assert (length hook_names = k) as L.
      { apply Nat.le_antisymm; [|rewrite <- LI; apply NoDup_incl_length; assumption].
        rewrite <- LI. apply NoDup_incl_length; [exact ND|]. intros n N. destruct (names_lines n N) as [p [h [P [H1 ->]]]].
        apply in_names in N; [|exact P]. cbn [line_kinds In] in P.
        destruct P as [<- |[<- |[<- |[]]]]; [|exfalso; apply NF; eexists; eexists; split; [|exact N]; cbn [In]; tauto ..].
        unfold imports. apply in_map_iff. exists h. split; [reflexivity|]. apply in_seq.
        assert (is_hook h = true) as IH by (unfold is_hook; destruct (get sect ("import_" ++ decimal h)%string); congruence). apply K in IH. lia. }
      rewrite L. f_equal. lia.
  Qed.
End Hooks.
Print Assumptions hooks_exact.
Print Assumptions hooks_numbered.

(** A number read back from its text. *)
Definition int_of (s : string) : option Z := option_map Z.of_int (NilZero.int_of_string s).
Lemma int_of_decimal : forall h, int_of (decimal h) = Some (Z.of_nat h).
Proof.
  intro h. unfold int_of, decimal. rewrite NilZero.isi; [cbn [option_map]; rewrite DecimalZ.of_to; reflexivity| |];
    destruct h as [|h]; cbn [Z.of_nat Z.to_int]; try discriminate.
  intro H. assert (Pos.to_uint (Pos.of_succ_nat h) = Decimal.Nil) as E by congruence. exact (DecimalPos.Unsigned.to_uint_nonnil _ E).
Qed.
Definition ex_import (i : lit) (package : option lit) : result string :=
  match i with LList [m; c] => Ok (m ++ "." ++ c)%string | _ => Raise TypeError end.
(** Two hooks, one with arguments; the same two without. *)
Example hooks_case :
  load_hooks _ ex_import int_of [("import_1", LList ["posydon.binary_evol.simulationproperties"; "TimingHooks"]); ("kwargs_1", LDict []);
      ("import_2", LList ["mine"; "Hook"]); ("extra_note", LNone)] =
    Ok ([("extra_note", LNone)], [("posydon.binary_evol.simulationproperties.TimingHooks", LDict []); ("mine.Hook", LDict [])]).
Proof. vm_compute. reflexivity. Qed.
Theorem hooks_refuted :
  load_hooks _ ex_import int_of [("import_1", LList ["mine"; "Hook"])] = Ok ([("import_1", LList ["mine"; "Hook"])], []) /\
  load_hooks _ ex_import int_of [("import_1", LList ["mine"; "Hook"]); ("import_3", LList ["mine"; "Other"]); ("kwargs_3", LDict [])] =
    Ok ([("import_3", LList ["mine"; "Other"]); ("kwargs_3", LDict [])], [("mine.Hook", LDict [])]).
Proof. vm_compute. split; reflexivity. Qed.
Print Assumptions hooks_refuted.

(** ** All sections *)
Section Sections.
  Variable C : Type.
  Variable literal : string -> result lit.
  Variables (import_posydon import_file : lit -> result C) (import_hook : lit -> option lit -> result C).
  Variable to_int : string -> option Z.
  Local Notation simprop := (simprop_kwargs C literal import_posydon import_file import_hook to_int).
  Local Notation one := (one_section C literal import_posydon import_file import_hook to_int).

  (** The class a section imports and the keyword arguments left. *)
  Definition imports (sect : list (string * lit)) (c : C) : Prop :=
    exists i, get sect "import" = Some i /\
      match get sect "absolute_import" with
      | Some LNone | None => import_posydon i = Ok c
      | Some a => import_file a = Ok c
      end.
  Definition arguments (sect kwargs : list (string * lit)) : Prop :=
    forall k, get kwargs k = if String.eqb k "import" || String.eqb k "absolute_import" then None else get sect k.

  (** What one section writes. *)
  Definition writes (s : string) (items : list (string * string)) (ws : list (string * setting C)) : Prop :=
    forall out, one s items out = Ok (dset_all String.eqb out ws).
  Lemma get_without_same : forall A (d : list (string * A)) k, NoDup (dkeys d) -> get (without d k) k = None.
  Proof.
    intros A d k ND. induction d as [|[a v] d IH]; [reflexivity|]. inversion ND as [|? ? N ND']; subst. cbn [without].
    destruct (String.eqb_spec k a) as [-> |NE].
    - apply (dget_None_notin String.eqb_spec). exact N.
    - cbn [dget]. destruct (String.eqb_spec k a); [congruence | apply IH; exact ND'].
  Qed.
  Lemma without_keys : forall A (d : list (string * A)) k x, In x (dkeys (without d k)) -> In x (dkeys d).
  Proof.
    intros A d k x. induction d as [|[a v] d IH]; [tauto|]. cbn [without]. destruct (String.eqb k a); [right; assumption|].
    cbn [dkeys map fst In]. intros [H|H]; [left; exact H | right; apply IH; exact H].
  Qed.
  Lemma without_nodup : forall A (d : list (string * A)) k, NoDup (dkeys d) -> NoDup (dkeys (without d k)).
  Proof.
    intros A d k ND. induction d as [|[a v] d IH]; [constructor|]. inversion ND as [|? ? N ND']; subst. cbn [without].
    destruct (String.eqb k a); [exact ND'|]. cbn [dkeys map fst]. constructor; [|apply IH; exact ND'].
    intro H. apply N. exact (without_keys _ _ _ _ H).
  Qed.
  Lemma evaluate_keys : forall items d, evaluate literal items = Ok d -> dkeys d = map fst items.
  Proof.
    induction items as [|[k t] items IH]; intros d H; cbn [evaluate] in H.
    - assert (d = []) as -> by congruence. reflexivity.
    - destruct (literal t) as [v|]; cbn [rbind] in H; [|congruence]. destruct (evaluate literal items) as [r|]; cbn [rbind] in H; [|congruence].
      assert (d = (k, v) :: r) as -> by congruence. cbn [dkeys map fst]. f_equal. apply IH. reflexivity.
  Qed.

  Lemma section_writes : forall s items out out', NoDup (map fst items) -> one s items out = Ok out' ->
    exists sect ws, evaluate literal items = Ok sect /\ writes s items ws /\
      (forall k, In k (map fst ws) -> k = s \/ s = "grid_paths" /\ In k (map fst items)) /\
      (s <> "extra_hooks" -> s <> "grid_paths" ->
         match get sect "import" with
         | None => ws = []
         | Some _ => exists c kwargs, ws = [(s, Step c kwargs)] /\ imports sect c /\ arguments sect kwargs
         end) /\
      (s = "grid_paths" -> get sect "import" = None -> ws = map (fun e => (fst e, Value (snd e))) sect) /\
      (s = "extra_hooks" -> exists r hooks, last_write String.eqb ws s = Some (Hooks hooks) /\
         (get sect "import" = None -> load_hooks C import_hook to_int sect = Ok (r, hooks))).
  Proof.
    intros s items out out' NDI H. unfold one_section in H. destruct (evaluate literal items) as [sect|] eqn:EV; cbn [rbind] in H; [|congruence].
    pose proof (evaluate_keys _ _ EV) as KE. assert (NoDup (dkeys sect)) as ND by (rewrite KE; exact NDI).
    destruct (get sect "import") as [i|] eqn:GI.
    - set (s1 := without sect "import") in *. set (s2 := without s1 "absolute_import") in *.
      destruct (match get s1 "absolute_import" with Some LNone | None => import_posydon i | Some a => import_file a end) as [c|] eqn:GC; cbn [rbind] in H; [|congruence].
      assert (imports sect c) as IM.
      { exists i. split; [exact GI|]. unfold s1 in GC. rewrite get_without in GC by discriminate. destruct (get sect "absolute_import") as [[]|]; exact GC. }
      assert (arguments sect s2) as AR.
      { intro k. unfold s2, s1. destruct (String.eqb_spec k "import") as [-> |N1]; cbn [orb].
        - rewrite get_without by discriminate. apply get_without_same. exact ND.
        - destruct (String.eqb_spec k "absolute_import") as [-> |N2]; [apply get_without_same; apply without_nodup; exact ND|].
          rewrite !get_without by assumption. reflexivity. }
      destruct (String.eqb_spec s "extra_hooks") as [-> |NH]; cbn [fst snd rbind] in H.
      + destruct (load_hooks C import_hook to_int s2) as [[r hooks]|] eqn:LH; cbn [rbind] in H; [|congruence].
        exists sect, [("extra_hooks", Step c s2); ("extra_hooks", Hooks hooks)]. split; [reflexivity|]. split.
        { intro o. unfold one_section. rewrite EV. cbn [rbind]. rewrite GI. fold s1. fold s2. rewrite GC. cbn [rbind String.eqb fst snd].
          replace (String.eqb "extra_hooks" "extra_hooks") with true by reflexivity. rewrite LH. cbn [rbind fst snd]. reflexivity. }
        split; [intros k K; cbn [map fst In] in K; left; intuition congruence|]. split; [congruence|]. split; [discriminate|].
        intros _. exists r, hooks. split; [reflexivity | congruence].
      + destruct (String.eqb_spec s "grid_paths") as [-> |NG].
        * exists sect, ((("grid_paths", Step c s2) :: map (fun e => (fst e, Value (snd e))) s2)). split; [reflexivity|]. split.
          { intro o. unfold one_section. rewrite EV. cbn [rbind]. rewrite GI. fold s1. fold s2. rewrite GC. cbn [rbind fst snd].
            replace (String.eqb "grid_paths" "extra_hooks") with false by reflexivity. cbn [rbind fst snd]. reflexivity. }
          split.
          { intros k [K|K]; [left; symmetry; exact K|]. right. split; [reflexivity|]. rewrite map_map in K. cbn [fst] in K.
            rewrite <- KE. apply (without_keys _ _ "import"). apply (without_keys _ _ "absolute_import"). exact K. }
          split; [congruence|]. split; [congruence | discriminate].
        * exists sect, [(s, Step c s2)]. split; [reflexivity|]. split.
          { intro o. unfold one_section. rewrite EV. cbn [rbind]. rewrite GI. fold s1. fold s2. rewrite GC. cbn [rbind fst snd].
            destruct (String.eqb_spec s "extra_hooks"); [congruence|]. cbn [rbind fst snd]. destruct (String.eqb_spec s "grid_paths"); [congruence|]. reflexivity. }
          split; [intros k [K|[]]; left; symmetry; exact K|]. split; [|split; congruence].
          intros _ _. rewrite GI. exists c, s2. split; [reflexivity|]. split; assumption.
    - cbn [rbind] in H. destruct (String.eqb_spec s "extra_hooks") as [-> |NH]; cbn [fst snd rbind] in H.
      + destruct (load_hooks C import_hook to_int sect) as [[r hooks]|] eqn:LH; cbn [rbind] in H; [|congruence].
        exists sect, [("extra_hooks", Hooks hooks)]. split; [reflexivity|]. split.
        { intro o. unfold one_section. rewrite EV. cbn [rbind]. rewrite GI. cbn [rbind fst snd].
          replace (String.eqb "extra_hooks" "extra_hooks") with true by reflexivity. rewrite LH. cbn [rbind fst snd]. reflexivity. }
        split; [intros k [K|[]]; left; symmetry; exact K|]. split; [congruence|]. split; [discriminate|].
        intros _. exists r, hooks. split; [reflexivity | intros _; exact LH].
      + destruct (String.eqb_spec s "grid_paths") as [-> |NG].
        * exists sect, (map (fun e => (fst e, Value (snd e))) sect). split; [reflexivity|]. split.
          { intro o. unfold one_section. rewrite EV. cbn [rbind]. rewrite GI. cbn [rbind fst snd].
            replace (String.eqb "grid_paths" "extra_hooks") with false by reflexivity. cbn [rbind fst snd]. reflexivity. }
          split; [intros k K; right; split; [reflexivity|]; rewrite map_map in K; cbn [fst] in K; rewrite <- KE; exact K|].
          split; [congruence|]. split; [reflexivity | discriminate].
        * exists sect, []. split; [reflexivity|]. split.
          { intro o. unfold one_section. rewrite EV. cbn [rbind]. rewrite GI. cbn [rbind fst snd].
            destruct (String.eqb_spec s "extra_hooks"); [congruence|]. cbn [rbind fst snd]. destruct (String.eqb_spec s "grid_paths"); [congruence|]. reflexivity. }
          split; [intros k []|]. split; [intros _ _; rewrite GI; reflexivity|]. split; congruence.
  Qed.

  Definition selected (only : option string) (s : string) : Prop :=
    s <> "DEFAULT" /\ match only with Some o => s = o | None => True end.

  Lemma last_write_none : forall (l : list (string * setting C)) k, ~ In k (map fst l) -> last_write String.eqb l k = None.
  Proof.
    induction l as [|[a v] l IH]; intros k N; [reflexivity|]. rewrite last_write_cons, IH by (intro H; apply N; right; exact H).
    destruct (String.eqb_spec k a); [|reflexivity]. exfalso. apply N. left. symmetry. assumption.
  Qed.

  (** The whole loop: the writes of the sections one after another. *)
  Lemma sections_writes : forall only parser out out', (forall s items, In (s, items) parser -> NoDup (map fst items)) ->
    sections C literal import_posydon import_file import_hook to_int only parser out = Ok out' ->
    exists wss, Forall2 (fun si ws => ~ selected only (fst si) /\ ws = [] \/ selected only (fst si) /\ writes (fst si) (snd si) ws) parser wss /\
      out' = dset_all String.eqb out (concat wss).
  Proof.
    intros only. induction parser as [|[s items] parser IH]; intros out out' ND H; cbn [sections] in H.
    - exists []. split; [constructor | cbn; congruence].
    - assert (forall s0 items0, In (s0, items0) parser -> NoDup (map fst items0)) as ND' by (intros; eapply ND; right; eassumption).
      destruct (String.eqb s "DEFAULT" || match only with Some o => negb (String.eqb s o) | None => false end) eqn:B.
      + destruct (IH _ _ ND' H) as [wss [F E]]. exists ([] :: wss). split; [|exact E]. constructor; [|exact F]. left. split; [|reflexivity].
        cbn [fst]. intros [S1 S2]. apply orb_true_iff in B. destruct B as [B|B]; [apply String.eqb_eq in B; congruence|].
        destruct only as [o|]; [|discriminate]. subst o. rewrite String.eqb_refl in B. discriminate.
      + destruct (one_section C literal import_posydon import_file import_hook to_int s items out) as [o1|] eqn:E1; cbn [rbind] in H; [|congruence].
        destruct (section_writes s items out o1 (ND s items (or_introl eq_refl)) E1) as [sect [ws [_ [W _]]]].
        pose proof (W out) as W'. assert (o1 = dset_all String.eqb out ws) as E2 by congruence.
        destruct (IH _ _ ND' H) as [wss [F E]]. exists (ws :: wss). split.
        * constructor; [|exact F]. right. cbn [fst snd]. split; [|exact W]. apply orb_false_iff in B. destruct B as [B1 B2]. split.
          -- apply String.eqb_neq. exact B1.
          -- destruct only as [o|]; [|exact I]. apply negb_false_iff in B2. apply String.eqb_eq. exact B2.
        * rewrite E, E2. unfold dset_all. cbn [concat]. rewrite fold_left_app. reflexivity.
  Qed.

  (** C42: a successful reading of the file gives, for every section with an import line, the class
      imported and all other options as keyword arguments; sections without one (other than
      extra_hooks and grid_paths) are left out without an error; the options of grid_paths are given
      under their own names; nothing else is given. *)
  Theorem simprop_exact : forall parser only out,
    NoDup (map fst parser) -> (forall s items, In (s, items) parser -> NoDup (map fst items)) ->
    simprop parser only = Ok out ->
    (forall s items, In (s, items) parser -> selected only s -> s <> "extra_hooks" -> s <> "grid_paths" ->
       (forall paths, In ("grid_paths", paths) parser -> selected only "grid_paths" -> ~ In s (map fst paths)) ->
       exists sect, evaluate literal items = Ok sect /\
         match get sect "import" with
         | None => get out s = None
         | Some _ => exists c kwargs, get out s = Some (Step c kwargs) /\ imports sect c /\ arguments sect kwargs
         end) /\
    (forall items, In ("extra_hooks", items) parser -> selected only "extra_hooks" ->
       (forall paths, In ("grid_paths", paths) parser -> selected only "grid_paths" -> ~ In "extra_hooks" (map fst paths)) ->
       exists sect r hooks, evaluate literal items = Ok sect /\ get out "extra_hooks" = Some (Hooks hooks) /\
         (get sect "import" = None -> load_hooks C import_hook to_int sect = Ok (r, hooks))) /\
    (forall items k, In ("grid_paths", items) parser -> selected only "grid_paths" -> In k (map fst items) ->
       ~ In k (map fst parser) -> ~ In "import" (map fst items) ->
       exists sect v, evaluate literal items = Ok sect /\ get sect k = Some v /\ get out k = Some (Value v)) /\
    (forall k, get out k <> None -> (exists items, In (k, items) parser /\ selected only k) \/
       (exists paths, In ("grid_paths", paths) parser /\ selected only "grid_paths" /\ In k (map fst paths))).
  Proof.
    intros parser only out NDP NDI H. unfold simprop_kwargs in H.
    destruct (sections_writes _ _ _ _ NDI H) as [wss [F E]].
    assert (forall k, get out k = last_write String.eqb (concat wss) k) as G.
    { intro k. rewrite E, (dget_dset_all String.eqb_spec). destruct (last_write String.eqb (concat wss) k); reflexivity. }
    (* every selected section succeeded *)
    assert (forall s items ws, writes s items ws -> exists o, one s items [] = Ok o) as OK by (intros s items ws W; eexists; apply (W [])).
    (* keys written by other sections *)
    assert (forall s items ws, NoDup (map fst items) -> writes s items ws ->
      exists sect ws0, evaluate literal items = Ok sect /\ dset_all String.eqb [] ws = dset_all String.eqb [] ws0 /\
      (forall k, In k (map fst ws0) -> k = s \/ s = "grid_paths" /\ In k (map fst items)) /\
      (s <> "extra_hooks" -> s <> "grid_paths" ->
         match get sect "import" with
         | None => ws0 = []
         | Some _ => exists c kwargs, ws0 = [(s, Step c kwargs)] /\ imports sect c /\ arguments sect kwargs
         end) /\
      (s = "grid_paths" -> get sect "import" = None -> ws0 = map (fun e => (fst e, Value (snd e))) sect) /\
      (s = "extra_hooks" -> exists r hooks, last_write String.eqb ws0 s = Some (Hooks hooks) /\
         (get sect "import" = None -> load_hooks C import_hook to_int sect = Ok (r, hooks)))) as WS.
    { intros s items ws ND W. destruct (OK _ _ _ W) as [o O].
      destruct (section_writes s items [] o ND O) as [sect [ws0 [EV [W0 R]]]]. exists sect, ws0. split; [exact EV|].
      split; [pose proof (W []); pose proof (W0 []); congruence | exact R]. }
    assert (forall ws ws0 : list (string * setting C), dset_all String.eqb [] ws = dset_all String.eqb [] ws0 -> forall k, last_write String.eqb ws k = last_write String.eqb ws0 k) as LW.
    { intros ws ws0 X k. pose proof (dget_dset_all String.eqb_spec ws (@nil (string * setting C)) k) as A.
      pose proof (dget_dset_all String.eqb_spec ws0 (@nil (string * setting C)) k) as B. rewrite X, B in A. cbn [dget] in A.
      destruct (last_write String.eqb ws k), (last_write String.eqb ws0 k); congruence. }
    (* the value of a key that only one section can write *)
    assert (forall k s items ws, In (s, items) parser -> selected only s -> writes s items ws ->
      (forall s' items' ws', In (s', items') parser -> s' <> s -> selected only s' -> writes s' items' ws' -> last_write String.eqb ws' k = None) ->
      last_write String.eqb (concat wss) k = last_write String.eqb ws k) as ONE.
    { intros k s items ws I S W O. clear E G H. 
      assert (forall ws1, writes s items ws1 -> last_write String.eqb ws1 k = last_write String.eqb ws k) as UNI.
      { intros ws1 W1. apply LW. pose proof (W []). pose proof (W1 []). congruence. }
      induction F as [|[s1 items1] ws1 parser' wss' F1 F IH]; [destruct I|].
      cbn [concat]. rewrite last_write_app. inversion NDP as [|? ? N1 NDP']; subst. cbn [fst snd] in *.
      destruct I as [I|I].
      - assert (s1 = s) as -> by congruence. assert (items1 = items) as -> by congruence.
        assert (last_write String.eqb (concat wss') k = None) as Z.
        { assert (forall si ws', In (si, ws') (combine parser' wss') -> last_write String.eqb ws' k = None) as A.
          { intros [s2 i2] ws2 C2. assert (In (s2, i2) parser') as I2 by (eapply in_combine_l; exact C2).
            assert (s2 <> s) as D by (intro; subst; apply N1; apply (in_map fst) in I2; exact I2).
            clear - F C2 O I2 D. assert (~ selected only s2 /\ ws2 = [] \/ selected only s2 /\ writes s2 i2 ws2) as X.
            { clear I2 O. induction F as [|a b p w FA F IH]; [destruct C2|]. destruct C2 as [C2|C2].
              - assert (a = (s2, i2)) as -> by congruence. assert (b = ws2) as -> by congruence. exact FA.
              - apply IH. exact C2. }
            destruct X as [[_ ->]|[X1 X2]]; [reflexivity|]. eapply O; [right; exact I2 | exact D | exact X1 | exact X2]. }
          clear - A F. revert A. induction F as [|a b p w FA F IH]; intro A; [reflexivity|]. cbn [concat]. rewrite last_write_app, IH.
          - apply (A a b). left. reflexivity.
          - intros si ws' X. apply (A si ws'). right. exact X. }
        rewrite Z. destruct F1 as [[F1 _]|[_ F1]]; [tauto | apply UNI; exact F1].
      - assert (last_write String.eqb (concat wss') k = last_write String.eqb ws k) as R.
        { apply IH; [exact NDP' | intros; eapply NDI; right; eassumption | exact I |]. intros; eapply O; [right|..]; eassumption. }
        rewrite R. destruct (last_write String.eqb ws k) as [v|] eqn:V; [reflexivity|].
        assert (s1 <> s) as D by (intro; subst; apply N1; apply (in_map fst) in I; exact I).
        destruct F1 as [[_ ->]|[F1 F2]]; [reflexivity|]. eapply O; [left; reflexivity | exact D | exact F1 | exact F2]. }
    assert (forall s items, In (s, items) parser -> selected only s -> exists ws, writes s items ws) as EX.
    { clear - F. induction F as [|[s1 i1] ws1 p w FA F IH]; intros s items I S; [destruct I|]. destruct I as [I|I]; [|apply IH; assumption].
      assert (s1 = s /\ i1 = items) as [-> ->] by (split; congruence). cbn [fst snd] in FA. destruct FA as [[FA _]|[_ FA]]; [tauto | exists ws1; exact FA]. }
    assert (forall s, (forall paths, In ("grid_paths", paths) parser -> selected only "grid_paths" -> ~ In s (map fst paths)) ->
      forall s' items' ws', In (s', items') parser -> s' <> s -> selected only s' -> writes s' items' ws' -> last_write String.eqb ws' s = None) as OTHER.
    { intros s NG s' items' ws' I' D S' W'. destruct (WS s' items' ws' (NDI _ _ I') W') as [sect [ws0 [_ [X [K _]]]]].
      rewrite (LW _ _ X). apply last_write_none. intro Y. apply K in Y. destruct Y as [Y|[-> Y]]; [congruence|].
      exact (NG items' I' S' Y). }
    split; [|split; [|split]].
    - intros s items I S N1 N2 NG. destruct (EX s items I S) as [ws W].
      destruct (WS s items ws (NDI _ _ I) W) as [sect [ws0 [EV [X [_ [K _]]]]]]. exists sect. split; [exact EV|].
      specialize (K N1 N2). rewrite G, (ONE s s items ws I S W (OTHER s NG)), (LW _ _ X). destruct (get sect "import").
      + destruct K as [c [kwargs [-> [IM AR]]]]. exists c, kwargs. split; [|split; assumption].
        rewrite last_write_cons. cbn. rewrite String.eqb_refl. reflexivity.
      + rewrite K. reflexivity.
    - intros items I S NG. destruct (EX _ _ I S) as [ws W]. destruct (WS _ items ws (NDI _ _ I) W) as [sect [ws0 [EV [X [_ [_ [_ K]]]]]]].
      destruct (K eq_refl) as [r [hooks [L LH]]]. exists sect, r, hooks. split; [exact EV|]. split; [|exact LH].
      rewrite G, (ONE _ _ items ws I S W (OTHER _ NG)), (LW _ _ X). exact L.
    - intros items k I S K NP NI. destruct (EX _ _ I S) as [ws W]. destruct (WS _ items ws (NDI _ _ I) W) as [sect [ws0 [EV [X [_ [_ [KG _]]]]]]].
      pose proof (evaluate_keys _ _ EV) as KE.
      assert (get sect "import" = None) as GI by (apply (dget_None_notin String.eqb_spec); rewrite KE; exact NI).
      assert (exists v, get sect k = Some v) as [v V].
      { destruct (get sect k) as [v|] eqn:V; [eauto|]. apply (dget_None_notin String.eqb_spec) in V. rewrite KE in V. tauto. }
      exists sect, v. split; [exact EV|]. split; [exact V|].
      rewrite G, (ONE k _ items ws I S W).
      + rewrite (LW _ _ X), (KG eq_refl GI). 
        assert (NoDup (dkeys sect)) as NDS by (rewrite KE; apply (NDI _ _ I)).
        clear - V NDS. induction sect as [|[a u] l IH]; [discriminate|]. cbn [map fst snd]. rewrite last_write_cons.
        inversion NDS as [|? ? N ND']; subst. cbn [dget] in V. destruct (String.eqb_spec k a) as [-> |NE].
        * rewrite last_write_none; [congruence|]. rewrite map_map. cbn [fst]. exact N.
        * rewrite (IH V ND'). reflexivity.
      + intros s' items' ws' I' D S' W'. destruct (WS s' items' ws' (NDI _ _ I') W') as [sect' [ws0' [_ [X' [K' _]]]]].
        rewrite (LW _ _ X'). apply last_write_none. intro Y. apply K' in Y. destruct Y as [-> |[-> _]]; [|congruence].
        apply NP. apply (in_map fst) in I'. exact I'.
    - intros k N. rewrite G in N.
      destruct (last_write String.eqb (concat wss) k) as [v|] eqn:V; [|congruence]. clear N.
      assert (exists s items ws, In (s, items) parser /\ selected only s /\ writes s items ws /\ last_write String.eqb ws k <> None) as [s [items [ws [I [S [W L]]]]]].
      { clear - F V. revert v V. induction F as [|[s1 i1] ws1 p w FA F IH]; intros v V; [discriminate|]. cbn [concat] in V. rewrite last_write_app in V.
        destruct (last_write String.eqb (concat w) k) as [u|] eqn:U.
        - destruct (IH u eq_refl) as [s [items [ws [I R]]]]. exists s, items, ws. split; [right; exact I | exact R].
        - cbn [fst snd] in FA. destruct FA as [[_ ->]|[F1 F2]]; [discriminate|]. exists s1, i1, ws1. split; [left; reflexivity|].
          split; [exact F1|]. split; [exact F2 | congruence]. }
      destruct (WS s items ws (NDI _ _ I) W) as [sect [ws0 [_ [X [K _]]]]]. rewrite (LW _ _ X) in L.
      destruct (inb_spec String.eqb_spec k (map fst ws0)) as [Y|Y]; [|exfalso; apply L; apply last_write_none; exact Y].
      apply K in Y. destruct Y as [-> |[-> Y]]; [left; eauto | right; eauto].
  Qed.
End Sections.
Print Assumptions simprop_exact.

Definition ex_literal (s : string) : result lit :=
  match s with
  | "None" => Ok LNone
  | "['posydon.binary_evol.DT.step_detached', 'detached_step']" => Ok (LList ["posydon.binary_evol.DT.step_detached"; "detached_step"])
  | "['mine.py', 'step']" => Ok (LList ["mine.py"; "step"])
  | "'/data/grid.h5'" => Ok (LStr "/data/grid.h5")
  | "True" => Ok (LBool true) | "False" => Ok (LBool false)
  | "10" => Ok (LNum 10)
  | _ => Raise ValueError
  end.
Definition ex_class (i : lit) : result string := ex_import i None.
Definition ex_parser : list (string * list (string * string)) :=
  [("DEFAULT", []);
   ("step_detached", [("import", "['posydon.binary_evol.DT.step_detached', 'detached_step']"); ("absolute_import", "None"); ("n_o_steps", "10")]);
   ("step_mine", [("absolute_import", "['mine.py', 'step']"); ("import", "None"); ("verbose", "True")]);
   ("step_typo", [("imports", "['mine.py', 'step']")]);
   ("extra_hooks", [("import_1", "['mine.py', 'step']"); ("kwargs_1", "None")]);
   ("grid_paths", [("PSyGrid_HMS_HMS", "'/data/grid.h5'")])].
Example simprop_case :
  simprop_kwargs string ex_literal ex_class ex_class ex_import int_of ex_parser None =
    Ok [("step_detached", Step "posydon.binary_evol.DT.step_detached.detached_step" [("n_o_steps", LNum 10)]);
        ("step_mine", Step "mine.py.step" [("verbose", LBool true)]);
        ("extra_hooks", Hooks [("mine.py.step", LNone)]); ("PSyGrid_HMS_HMS", Value (LStr "/data/grid.h5"))] /\
  simprop_kwargs string ex_literal ex_class ex_class ex_import int_of ex_parser (Some "step_mine") =
    Ok [("step_mine", Step "mine.py.step" [("verbose", LBool true)])] /\
  NoDup (map fst ex_parser) /\ (forall s items, In (s, items) ex_parser -> NoDup (map fst items)).
Proof.
  split; [vm_compute; reflexivity|]. split; [vm_compute; reflexivity|]. split.
  - cbn. repeat constructor; cbn; intuition discriminate.
  - intros s items H. cbn [ex_parser In] in H. repeat (destruct H as [H|H]; [assert (items = snd (s, items)) as -> by reflexivity; rewrite <- H; cbn; repeat constructor; cbn; intuition discriminate|]). destruct H.
Qed.

(** ** C58: population options *)
Lemma one_writer : forall A V (R : string * A -> list (string * V) -> Prop) (l : list (string * A)) wss,
  Forall2 R l wss -> NoDup (map fst l) -> forall k s a, In (s, a) l ->
  (forall s' a' ws', In (s', a') l -> s' <> s -> R (s', a') ws' -> last_write String.eqb ws' k = None) ->
  exists ws, R (s, a) ws /\ last_write String.eqb (concat wss) k = last_write String.eqb ws k.
Proof.
  intros A V R l wss F. induction F as [|[s1 a1] ws1 l wss RA F IH]; intros ND k s a I O; [destruct I|].
  inversion ND as [|? ? N ND']; subst. cbn [concat]. destruct I as [I|I].
  - assert (s1 = s /\ a1 = a) as [-> ->] by (split; congruence). exists ws1. split; [exact RA|]. rewrite last_write_app.
    assert (last_write String.eqb (concat wss) k = None) as ->; [|reflexivity].
    assert (forall s' a' ws', In (s', a') l -> R (s', a') ws' -> last_write String.eqb ws' k = None) as Z.
    { intros s' a' ws' I' R'. apply (O s' a' ws'); [right; exact I' | | exact R']. intros ->. apply N. apply (in_map fst) in I'. exact I'. }
    clear - F Z. induction F as [|[s1 a1] ws1 l wss RA F IH]; [reflexivity|]. cbn [concat]. rewrite last_write_app, IH.
    + apply (Z s1 a1); [left; reflexivity | exact RA].
    + intros; eapply Z; [right|]; eassumption.
  - destruct (IH ND' k s a I) as [ws [R1 L]]; [intros; eapply O; [right|..]; eassumption|]. exists ws. split; [exact R1|].
    rewrite last_write_app, L. destruct (last_write String.eqb ws k) as [v|] eqn:E; [reflexivity|].
    apply (O s1 a1); [left; reflexivity | | exact RA]. intros ->. apply N. apply (in_map fst) in I. exact I.
Qed.

Section Population.
  Variable literal : string -> result lit.
  Variable env : environment.

  (** Communicator, job, rank and number of processes a population gets. *)
  Inductive parallel : bool -> list (string * option_value) -> Prop :=
  | Mpi : e_job env = None -> parallel true [("comm", World)]
  | Array : forall job mn i n, e_job env = Some job -> e_min env = Some mn -> e_id env = Some i -> e_count env = Some n ->
      parallel false [("comm", Missing); ("JOB_ID", Int job); ("RANK", Int (i - mn)); ("size", Int n)]
  | Serial : e_job env = None -> parallel false [("comm", Missing); ("RANK", Missing); ("size", Missing)].
  Definition truth (v : lit) : Prop :=
    match v with LNone => False | LBool b => b = true | LNum z => z <> 0%Z | LStr s => s <> "" | LList l => l <> [] | LDict d => d <> [] end.
  Definition reserved : list string := ["comm"; "JOB_ID"; "RANK"; "size"].
  Definition star_reserved : list string := ["include_S1"; "S1_kwargs"; "include_S2"; "S2_kwargs"].

  (** What a section writes. *)
  Definition star_writes (include own : string) (d : list (string * lit)) (ws : list (string * option_value)) : Prop :=
    exists v, get d include = Some v /\
      (truth v /\ ws = [(include, Lit v); (own, Options (without d include))] \/ ~ truth v /\ ws = [(include, Lit v)]).
  Definition section_of (si : string * list (string * string)) (ws : list (string * option_value)) : Prop :=
    let (s, items) := si in
    (s = "BinaryPopulation_options" /\ exists d par, evaluate literal items = Ok d /\
       (exists m, get d "use_MPI" = Some m /\ parallel (is_true m) par) /\ ws = lits d ++ par) \/
    (s = "BinaryStar_output" /\ exists d, evaluate literal items = Ok d /\ ws = lits d) \/
    (s = "SingleStar_1_output" /\ exists d, evaluate literal items = Ok d /\ star_writes "include_S1" "S1_kwargs" d ws) \/
    (s = "SingleStar_2_output" /\ exists d, evaluate literal items = Ok d /\ star_writes "include_S2" "S2_kwargs" d ws) \/
    (~ In s required /\ ws = []).

  Lemma star_section_writes : forall include own d kw out, star_section include own d kw = Ok out ->
    exists ws, star_writes include own d ws /\ out = dset_all String.eqb kw ws.
  Proof.
    intros include own d kw out H. unfold star_section in H. destruct (get d include) as [v|] eqn:G; [|congruence].
    assert (forall b : bool, (b = true -> truth v) -> (b = false -> ~ truth v) ->
      Ok (if b then dset String.eqb (dset String.eqb kw include (Lit v)) own (Options (without d include)) else dset String.eqb kw include (Lit v)) = Ok out ->
      exists ws, star_writes include own d ws /\ out = dset_all String.eqb kw ws) as A.
    { intros [] T1 T2 E.
      - exists [(include, Lit v); (own, Options (without d include))]. split; [exists v; split; [exact G|]; left; split; [apply T1|]; reflexivity|].
        cbn. congruence.
      - exists [(include, Lit v)]. split; [exists v; split; [exact G|]; right; split; [apply T2|]; reflexivity|]. cbn. congruence. }
    destruct v as [|b|z|s|l|l]; cbn [truth] in A.
    - apply (A false); [discriminate | tauto | exact H].
    - apply (A b); [tauto | intros -> Q; discriminate | exact H].
    - apply (A (negb (Z.eqb z 0))); [| |exact H]; destruct (Z.eqb_spec z 0); intro; cbn in *; congruence.
    - apply (A (negb (String.eqb s ""))); [| |exact H]; destruct (String.eqb_spec s ""); intro; cbn in *; congruence.
    - apply (A (match l with [] => false | _ => true end)); [| |exact H]; destruct l; intro; congruence.
    - apply (A (match l with [] => false | _ => true end)); [| |exact H]; destruct l; intro; congruence.
  Qed.
  Lemma lits_keys : forall d, map fst (lits d) = dkeys d.
  Proof. intro d. unfold lits. rewrite map_map. reflexivity. Qed.
  Lemma last_write_none' : forall V (l : list (string * V)) k, ~ In k (map fst l) -> last_write String.eqb l k = None.
  Proof.
    induction l as [|[a v] l IH]; intros k N; [reflexivity|]. rewrite last_write_cons, IH by (intro H; apply N; right; exact H).
    destruct (String.eqb_spec k a); [|reflexivity]. exfalso. apply N. left. symmetry. assumption.
  Qed.
  Lemma last_write_lits : forall d k, NoDup (dkeys d) -> last_write String.eqb (lits d) k = option_map Lit (get d k).
  Proof.
    induction d as [|[a v] d IH]; intros k ND; [reflexivity|]. inversion ND as [|? ? N ND']; subst. cbn [lits map fst snd dget].
    fold (lits d). rewrite last_write_cons. destruct (String.eqb_spec k a) as [-> |NE].
    - rewrite last_write_none'; [reflexivity|]. rewrite lits_keys. exact N.
    - rewrite (IH k ND'). destruct (get d k); reflexivity.
  Qed.
  Lemma population_section_writes : forall d kw out, NoDup (dkeys d) -> In "use_MPI" (dkeys d) -> population_section env d kw = Ok out ->
    exists par, (exists m, get d "use_MPI" = Some m /\ parallel (is_true m) par) /\ out = dset_all String.eqb kw (lits d ++ par).
  Proof.
    intros d kw out ND I H. unfold population_section in H. cbv zeta in H. rewrite (dget_dset_all String.eqb_spec), last_write_lits in H by exact ND.
    destruct (get d "use_MPI") as [m|] eqn:G; [|apply (dget_None_notin String.eqb_spec) in G; tauto]. cbn [option_map] in H.
    assert (forall par, dset_all String.eqb kw (lits d ++ par) = dset_all String.eqb (dset_all String.eqb kw (lits d)) par) as AP
      by (intro par; unfold dset_all; apply fold_left_app).
    destruct (is_true m) eqn:T; destruct (e_job env) as [job|] eqn:J.
    - congruence.
    - exists [("comm", World)]. split; [exists m; split; [reflexivity|]; rewrite T; constructor; exact J|]. rewrite AP. cbn. congruence.
    - destruct (e_min env) as [mn|] eqn:E1; cbn [env_int rbind] in H; [|congruence]. destruct (e_id env) as [i|] eqn:E2; cbn [env_int rbind] in H; [|congruence].
      destruct (e_count env) as [n|] eqn:E3; cbn [env_int rbind] in H; [|congruence].
      exists [("comm", Missing); ("JOB_ID", Int job); ("RANK", Int (i - mn)); ("size", Int n)].
      split; [exists m; split; [reflexivity|]; rewrite T; constructor; assumption|]. rewrite AP. cbn. congruence.
    - exists [("comm", Missing); ("RANK", Missing); ("size", Missing)].
      split; [exists m; split; [reflexivity|]; rewrite T; constructor; exact J|]. rewrite AP. cbn. congruence.
  Qed.

  Lemma population_writes : forall parser kw out, (forall s items, In (s, items) parser -> NoDup (map fst items)) ->
    (forall items, In ("BinaryPopulation_options", items) parser -> In "use_MPI" (map fst items)) ->
    population_sections literal env parser kw = Ok out ->
    exists wss, Forall2 section_of parser wss /\ out = dset_all String.eqb kw (concat wss).
  Proof.
    induction parser as [|[s items] parser IH]; intros kw out ND U H; cbn [population_sections] in H.
    - exists []. split; [constructor | cbn; congruence].
    - set (rest := population_sections literal env parser) in *.
      assert (forall kw1, rest kw1 = Ok out -> (exists ws, section_of (s, items) ws /\ kw1 = dset_all String.eqb kw ws) ->
        exists wss, Forall2 section_of ((s, items) :: parser) wss /\ out = dset_all String.eqb kw (concat wss)) as FIN.
      { intros kw1 R [ws [S E]]. destruct (IH kw1 out) as [wss [F E2]]; [intros; eapply ND; right; eassumption | intros; apply U; right; assumption | exact R|].
        exists (ws :: wss). split; [constructor; assumption|]. rewrite E2, E. unfold dset_all. cbn [concat]. rewrite fold_left_app. reflexivity. }
      pose proof (ND s items (or_introl eq_refl)) as NDI.
      destruct (evaluate literal items) as [d|] eqn:EV.
      + pose proof (evaluate_keys literal _ _ EV) as KE.
        assert (NoDup (dkeys d)) as NDd by (rewrite KE; exact NDI).
        destruct (String.eqb_spec s "BinaryPopulation_options") as [-> |N1].
        { cbn [rbind] in H. destruct (population_section env d kw) as [kw1|] eqn:P; cbn [rbind] in H; [|congruence].
          apply (FIN kw1 H). destruct (population_section_writes d kw kw1 NDd) as [par [M E]]; [rewrite KE; apply U; left; reflexivity | exact P|].
          exists (lits d ++ par). split; [|exact E]. left. split; [reflexivity|]. exists d, par. split; [exact EV|]. split; [exact M | reflexivity]. }
        destruct (String.eqb_spec s "BinaryStar_output") as [-> |N2].
        { cbn [rbind] in H. apply (FIN _ H). exists (lits d). split; [|reflexivity]. right. left. split; [reflexivity|]. exists d. split; [exact EV | reflexivity]. }
        destruct (String.eqb_spec s "SingleStar_1_output") as [-> |N3].
        { cbn [rbind] in H. destruct (star_section "include_S1" "S1_kwargs" d kw) as [kw1|] eqn:P; cbn [rbind] in H; [|congruence].
          apply (FIN kw1 H). destruct (star_section_writes _ _ _ _ _ P) as [ws [W E]]. exists ws. split; [|exact E].
          right. right. left. split; [reflexivity|]. exists d. split; [exact EV | exact W]. }
        destruct (String.eqb_spec s "SingleStar_2_output") as [-> |N4].
        { cbn [rbind] in H. destruct (star_section "include_S2" "S2_kwargs" d kw) as [kw1|] eqn:P; cbn [rbind] in H; [|congruence].
          apply (FIN kw1 H). destruct (star_section_writes _ _ _ _ _ P) as [ws [W E]]. exists ws. split; [|exact E].
          right. right. right. left. split; [reflexivity|]. exists d. split; [exact EV | exact W]. }
        cbn [rbind] in H. apply (FIN _ H). exists []. split; [|reflexivity]. do 4 right. split; [|reflexivity]. cbn [required In]. intuition congruence.
      + destruct (String.eqb_spec s "BinaryPopulation_options") as [-> |N1]; [cbn [rbind] in H; congruence|].
        destruct (String.eqb_spec s "BinaryStar_output") as [-> |N2]; [cbn [rbind] in H; congruence|].
        destruct (String.eqb_spec s "SingleStar_1_output") as [-> |N3]; [cbn [rbind] in H; congruence|].
        destruct (String.eqb_spec s "SingleStar_2_output") as [-> |N4]; [cbn [rbind] in H; congruence|].
        cbn [rbind] in H. apply (FIN _ H). exists []. split; [|reflexivity]. do 4 right. split; [|reflexivity]. cbn [required In]. intuition congruence.
  Qed.

  Lemma parallel_keys : forall b par k, parallel b par -> In k (map fst par) -> In k reserved.
  Proof. intros b par k P H. destruct P; cbn [map fst In reserved] in *; tauto. Qed.
  Lemma star_keys : forall include own d ws k, star_writes include own d ws -> In k (map fst ws) -> k = include \/ k = own.
  Proof. intros include own d ws k [v [_ [[_ ->]|[_ ->]]]] H; cbn [map fst In] in H; intuition congruence. Qed.

  (** C58 *)
  Theorem population_options : forall parser out pop star one two,
    NoDup (map fst parser) -> (forall s items, In (s, items) parser -> NoDup (map fst items)) ->
    In ("BinaryPopulation_options", pop) parser -> In ("BinaryStar_output", star) parser ->
    In ("SingleStar_1_output", one) parser -> In ("SingleStar_2_output", two) parser ->
    In "use_MPI" (map fst pop) ->
    (forall k, In k (map fst pop) -> ~ In k (map fst star)) ->
    (forall k, In k (map fst pop) \/ In k (map fst star) -> ~ In k reserved /\ ~ In k star_reserved) ->
    binarypop_kwargs literal env parser = Ok out ->
    exists dp ds d1 d2 m par v1 v2,
      evaluate literal pop = Ok dp /\ evaluate literal star = Ok ds /\ evaluate literal one = Ok d1 /\ evaluate literal two = Ok d2 /\
      (forall k v, get dp k = Some v -> get out k = Some (Lit v)) /\
      (forall k v, get ds k = Some v -> get out k = Some (Lit v)) /\
      get dp "use_MPI" = Some m /\ parallel (is_true m) par /\
      (forall k, In k reserved -> get out k = last_write String.eqb par k) /\
      get d1 "include_S1" = Some v1 /\ get out "include_S1" = Some (Lit v1) /\
      (truth v1 -> exists d, get out "S1_kwargs" = Some (Options d) /\
         forall k, get d k = if String.eqb k "include_S1" then None else get d1 k) /\
      (~ truth v1 -> get out "S1_kwargs" = None) /\
      get d2 "include_S2" = Some v2 /\ get out "include_S2" = Some (Lit v2) /\
      (truth v2 -> exists d, get out "S2_kwargs" = Some (Options d) /\
         forall k, get d k = if String.eqb k "include_S2" then None else get d2 k) /\
      (~ truth v2 -> get out "S2_kwargs" = None).
  Proof.
    intros parser out pop star one two ND NDI IP IS I1 I2 U D RES H. unfold binarypop_kwargs in H.
    set (p := filter (fun s => negb (String.eqb (fst s) "DEFAULT")) parser) in *.
    destruct (forallb (fun r => inb String.eqb r (dkeys p)) required); [|discriminate].
    assert (forall s items, In (s, items) p <-> In (s, items) parser /\ s <> "DEFAULT") as PI.
    { intros s items. unfold p. rewrite filter_In. cbn [fst]. rewrite negb_true_iff, String.eqb_neq. reflexivity. }
    assert (NoDup (map fst p)) as NDp.
    { clear - ND. unfold p. clear p. induction parser as [|[s i] l IH]; [constructor|]. inversion ND as [|? ? N ND']; subst. cbn [filter fst].
      destruct (negb (String.eqb s "DEFAULT")); [|apply IH; exact ND']. cbn [map fst]. constructor; [|apply IH; exact ND'].
      intro X. apply N. apply in_map_iff in X. destruct X as [[s' i'] [E X]]. apply filter_In in X. apply in_map_iff. exists (s', i'). tauto. }
    assert (forall s a b, In (s, a) p -> In (s, b) p -> a = b) as UNIQ.
    { clear - NDp. intros s a b. induction p as [|[s1 a1] l IH]; intros A B; [destruct A|]. inversion NDp as [|? ? N ND']; subst.
      destruct A as [A|A], B as [B|B]; [congruence | | |apply IH; assumption].
      - exfalso. apply N. assert (s1 = s) as -> by congruence. apply (in_map fst) in B. exact B.
      - exfalso. apply N. assert (s1 = s) as -> by congruence. apply (in_map fst) in A. exact A. }
    assert (In ("BinaryPopulation_options", pop) p) as IP' by (apply PI; split; [exact IP | discriminate]).
    assert (In ("BinaryStar_output", star) p) as IS' by (apply PI; split; [exact IS | discriminate]).
    assert (In ("SingleStar_1_output", one) p) as I1' by (apply PI; split; [exact I1 | discriminate]).
    assert (In ("SingleStar_2_output", two) p) as I2' by (apply PI; split; [exact I2 | discriminate]).
    destruct (population_writes p [] out) as [wss [F E]].
    { intros s items X. apply PI in X. apply (NDI s). tauto. }
    { intros items X. rewrite (UNIQ _ _ _ X IP'). exact U. }
    { exact H. }
    assert (forall k, get out k = last_write String.eqb (concat wss) k) as G.
    { intro k. rewrite E, (dget_dset_all String.eqb_spec). destruct (last_write String.eqb (concat wss) k); reflexivity. }
    (* keys each section can write *)
    assert (forall s items ws k, In (s, items) p -> section_of (s, items) ws -> In k (map fst ws) ->
      s = "BinaryPopulation_options" /\ (In k (map fst pop) \/ In k reserved) \/ s = "BinaryStar_output" /\ In k (map fst star) \/
      s = "SingleStar_1_output" /\ (k = "include_S1" \/ k = "S1_kwargs") \/ s = "SingleStar_2_output" /\ (k = "include_S2" \/ k = "S2_kwargs")) as KEYS.
    { intros s items ws k I S K. destruct S as [[-> S]|[[-> S]|[[-> S]|[[-> S]|[_ ->]]]]].
      - destruct S as [d [par [EV [[m [_ P]] ->]]]]. left. split; [reflexivity|]. rewrite map_app, in_app_iff, lits_keys in K.
        rewrite (UNIQ _ _ _ I IP') in EV. rewrite (evaluate_keys literal _ _ EV) in K. destruct K as [K|K]; [left; exact K | right; exact (parallel_keys _ _ _ P K)].
      - destruct S as [d [EV ->]]. right. left. split; [reflexivity|]. rewrite lits_keys in K.
        rewrite (UNIQ _ _ _ I IS') in EV. rewrite (evaluate_keys literal _ _ EV) in K. exact K.
      - destruct S as [d [_ S]]. right. right. left. split; [reflexivity | exact (star_keys _ _ _ _ _ S K)].
      - destruct S as [d [_ S]]. right. right. right. split; [reflexivity | exact (star_keys _ _ _ _ _ S K)].
      - destruct K. }
    assert (forall k s a, In (s, a) p ->
      (forall s', s' <> s ->
       ~ (s' = "BinaryPopulation_options" /\ (In k (map fst pop) \/ In k reserved) \/ s' = "BinaryStar_output" /\ In k (map fst star) \/
      s' = "SingleStar_1_output" /\ (k = "include_S1" \/ k = "S1_kwargs") \/ s' = "SingleStar_2_output" /\ (k = "include_S2" \/ k = "S2_kwargs"))) ->
      exists ws, section_of (s, a) ws /\ get out k = last_write String.eqb ws k) as ONE.
    { intros k s a I O. destruct (one_writer _ _ _ p wss F NDp k s a I) as [ws [S L]].
      - intros s' a' ws' I' N' S'. apply last_write_none'. intro X. exact (O s' N' (KEYS _ _ _ _ I' S' X)).
      - exists ws. split; [exact S|]. rewrite G. exact L. }
    assert (forall ws, section_of ("BinaryPopulation_options", pop) ws -> exists d par, evaluate literal pop = Ok d /\
       (exists m, get d "use_MPI" = Some m /\ parallel (is_true m) par) /\ ws = lits d ++ par) as SP.
    { intros ws [[_ S]|[[X _]|[[X _]|[[X _]|[X _]]]]]; [exact S | discriminate ..|]. exfalso. apply X. cbn [required In]. tauto. }
    assert (forall ws, section_of ("BinaryStar_output", star) ws -> exists d, evaluate literal star = Ok d /\ ws = lits d) as SS.
    { intros ws [[X _]|[[_ S]|[[X _]|[[X _]|[X _]]]]]; [discriminate | exact S | discriminate ..|]. exfalso. apply X. cbn [required In]. tauto. }
    assert (forall ws, section_of ("SingleStar_1_output", one) ws -> exists d, evaluate literal one = Ok d /\ star_writes "include_S1" "S1_kwargs" d ws) as S1.
    { intros ws [[X _]|[[X _]|[[_ S]|[[X _]|[X _]]]]]; [discriminate .. | exact S | discriminate|]. exfalso. apply X. cbn [required In]. tauto. }
    assert (forall ws, section_of ("SingleStar_2_output", two) ws -> exists d, evaluate literal two = Ok d /\ star_writes "include_S2" "S2_kwargs" d ws) as S2.
    { intros ws [[X _]|[[X _]|[[X _]|[[_ S]|[X _]]]]]; [discriminate .. | exact S |]. exfalso. apply X. cbn [required In]. tauto. }
    assert (forall k, In k (map fst pop) -> exists d, evaluate literal pop = Ok d /\ forall v, get d k = Some v -> get out k = Some (Lit v)) as GP.
    { intros k K. destruct (RES k (or_introl K)) as [R1 R2]. destruct (ONE k _ _ IP') as [ws [S L]].
      - intros s' N' [[X _]|[[_ X]|[[_ X]|[_ X]]]]; [congruence | exact (D k K X) | apply R2; destruct X as [-> | ->]; cbn [star_reserved In]; tauto ..].
      - destruct (SP ws S) as [d [par [EV [[m [_ P]] ->]]]]. exists d. split; [exact EV|]. intros v V. rewrite L, last_write_app.
        rewrite (last_write_none' _ par) by (intro X; apply R1; exact (parallel_keys _ _ _ P X)).
        rewrite last_write_lits by (rewrite (evaluate_keys literal _ _ EV); apply (NDI _ _ IP)). rewrite V. reflexivity. }
    assert (forall k, In k (map fst star) -> exists d, evaluate literal star = Ok d /\ forall v, get d k = Some v -> get out k = Some (Lit v)) as GS.
    { intros k K. destruct (RES k (or_intror K)) as [R1 R2]. destruct (ONE k _ _ IS') as [ws [S L]].
      - intros s' N' [[_ [X|X]]|[[X _]|[[_ X]|[_ X]]]]; [exact (D k X K) | exact (R1 X) | congruence | apply R2; destruct X as [-> | ->]; cbn [star_reserved In]; tauto ..].
      - destruct (SS ws S) as [d [EV ->]]. exists d. split; [exact EV|]. intros v V. rewrite L.
        rewrite last_write_lits by (rewrite (evaluate_keys literal _ _ EV); apply (NDI _ _ IS)). rewrite V. reflexivity. }
    assert (exists d par m, evaluate literal pop = Ok d /\ get d "use_MPI" = Some m /\ parallel (is_true m) par) as [dp [par [m [EP [GM PM]]]]].
    { destruct (ONE "use_MPI" _ _ IP') as [ws [S L]].
      - destruct (RES "use_MPI" (or_introl U)) as [R1 R2].
        intros s' N' [[X _]|[[_ X]|[[_ X]|[_ X]]]]; [congruence | exact (D _ U X) | destruct X; discriminate ..].
      - destruct (SP ws S) as [d [par [EV [[m [GM P]] _]]]]. exists d, par, m. tauto. }
    assert (exists par', parallel (is_true m) par' /\ forall k, In k reserved -> get out k = last_write String.eqb par' k) as [par' [PM' GR]].
    { exists par. split; [exact PM|]. intros k K. destruct (ONE k _ _ IP') as [ws [S L]].
      - intros s' N' [[X _]|[[_ X]|[[_ X]|[_ X]]]]; [congruence | apply (proj1 (RES k (or_intror X))); exact K |
          destruct X as [-> | ->]; cbn [reserved In] in K; intuition discriminate ..].
      - destruct (SP ws S) as [d [par0 [EV [[m0 [GM0 P0]] ->]]]]. assert (d = dp) as -> by congruence. assert (m0 = m) as -> by congruence.
        assert (par0 = par) as ->.
        { destruct P0 as [J0|? ? ? ? J0 A0 B0 C0|J0]; inversion PM; subst; try congruence; reflexivity. }
        rewrite L, last_write_app. rewrite (last_write_none' _ (lits dp)); [destruct (last_write String.eqb par k); reflexivity|].
        rewrite lits_keys, (evaluate_keys literal _ _ EP). intro X. exact (proj1 (RES k (or_introl X)) K). }
    assert (forall include own s items, In (s, items) p ->
      (forall k, k = include \/ k = own -> In k star_reserved) ->
      (forall k s', k = include \/ k = own -> s' <> s ->
        ~ (s' = "SingleStar_1_output" /\ (k = "include_S1" \/ k = "S1_kwargs") \/ s' = "SingleStar_2_output" /\ (k = "include_S2" \/ k = "S2_kwargs"))) ->
      (forall ws, section_of (s, items) ws -> exists d, evaluate literal items = Ok d /\ star_writes include own d ws) -> include <> own ->
      exists d v, evaluate literal items = Ok d /\ get d include = Some v /\ get out include = Some (Lit v) /\
        (truth v -> exists d', get out own = Some (Options d') /\ forall k, get d' k = if String.eqb k include then None else get d k) /\
        (~ truth v -> get out own = None)) as STAR.
    { intros include own s items I R O SI NE.
      assert (forall k, k = include \/ k = own -> exists ws, section_of (s, items) ws /\ get out k = last_write String.eqb ws k) as ONE'.
      { intros k K. apply (ONE k s items I). intros s' N'. specialize (O k s' K N'). specialize (R k K).
        intros [[_ [X|X]]|[[_ X]|X]]; [exact (proj2 (RES k (or_introl X)) R) | cbn [reserved star_reserved In] in X, R; intuition congruence |
          exact (proj2 (RES k (or_intror X)) R) | exact (O X)]. }
      destruct (ONE' include (or_introl eq_refl)) as [w1 [SW1 L1]]. destruct (ONE' own (or_intror eq_refl)) as [w2 [SW2 L2]].
      destruct (SI w1 SW1) as [d [EV [v [GV W1]]]]. destruct (SI w2 SW2) as [d' [EV' [v' [GV' W2]]]].
      assert (d' = d) as -> by congruence. assert (v' = v) as -> by congruence.
      exists d, v. split; [exact EV|]. split; [exact GV|].
      assert (NoDup (dkeys d)) as NDd by (rewrite (evaluate_keys literal _ _ EV); apply (NDI s); apply PI in I; tauto).
      assert (last_write String.eqb w1 include = Some (Lit v)) as LI.
      { destruct W1 as [[_ ->]|[_ ->]]; rewrite !last_write_cons; cbn [last_write].
        - destruct (String.eqb_spec include own); [congruence|]. cbn. rewrite String.eqb_refl. reflexivity.
        - cbn. rewrite String.eqb_refl. reflexivity. }
      split; [congruence|]. rewrite L2. split; intro T.
      - destruct W2 as [[_ ->]|[T' _]]; [|tauto]. exists (without d include). split.
        + rewrite !last_write_cons. cbn. rewrite String.eqb_refl. reflexivity.
        + intro k. destruct (String.eqb_spec k include) as [-> |N]; [apply get_without_same; exact NDd | apply get_without; exact N].
      - destruct W2 as [[T' _]|[_ ->]]; [tauto|]. rewrite last_write_cons. cbn. destruct (String.eqb_spec own include); [congruence | reflexivity]. }
    destruct (STAR "include_S1" "S1_kwargs" _ _ I1') as [d1 [v1 [E1 [V1 [O1 [T1 F1]]]]]].
    { intros k [-> | ->]; cbn [star_reserved In]; tauto. }
    { intros k s' [-> | ->] N' [[X _]|[_ [X|X]]]; congruence. }
    { exact S1. } { discriminate. }
    destruct (STAR "include_S2" "S2_kwargs" _ _ I2') as [d2 [v2 [E2 [V2 [O2 [T2 F2]]]]]].
    { intros k [-> | ->]; cbn [star_reserved In]; tauto. }
    { intros k s' [-> | ->] N' [[_ [X|X]]|[X _]]; congruence. }
    { exact S2. } { discriminate. }
    assert (exists d, evaluate literal star = Ok d) as [ds ES].
    { clear - F IS' SS. induction F as [|a b l w S F IH]; [destruct IS'|]. destruct IS' as [-> |X]; [|exact (IH X)]. destruct (SS b S) as [d [EV _]]. eauto. }
    exists dp, ds, d1, d2, m, par', v1, v2.
    split; [exact EP|]. split; [exact ES|]. split; [exact E1|]. split; [exact E2|]. split.
    { intros k v V. destruct (GP k) as [d [EV L]]; [rewrite <- (evaluate_keys literal _ _ EP); apply (dget_Some_in String.eqb_spec) in V; apply (in_map fst) in V; exact V|].
      apply L. congruence. }
    split.
    { intros k v V. destruct (GS k) as [d [EV L]]; [rewrite <- (evaluate_keys literal _ _ ES); apply (dget_Some_in String.eqb_spec) in V; apply (in_map fst) in V; exact V|].
      apply L. congruence. }
    repeat (split; [assumption|]). assumption.
  Qed.

  (** C58: errors *)
  Theorem population_refused : forall parser,
    (forall r, In r required -> ~ In r (map fst parser) -> binarypop_kwargs literal env parser = Raise (OtherError "AssertionError")) /\
    (forall d m kw, get d "use_MPI" = Some m -> NoDup (dkeys d) -> m = LBool true -> e_job env <> None -> population_section env d kw = Raise ValueError).
  Proof.
    intro parser. split.
    - intros r R N. unfold binarypop_kwargs. set (p := filter _ parser).
      assert (forallb (fun r => inb String.eqb r (dkeys p)) required = false) as ->; [|reflexivity].
      apply not_true_iff_false. rewrite forallb_forall. intro A. specialize (A r R).
      destruct (inb_spec String.eqb_spec r (dkeys p)) as [I|]; [|discriminate]. apply N. unfold p, dkeys in I. apply in_map_iff in I.
      destruct I as [x [<- I]]. apply filter_In in I. apply in_map. tauto.
    - intros d m kw M ND -> J. unfold population_section. cbv zeta. rewrite (dget_dset_all String.eqb_spec), last_write_lits, M by exact ND.
      cbn [option_map is_true]. destruct (e_job env); [reflexivity | congruence].
  Qed.
End Population.
Print Assumptions population_options.
Print Assumptions population_refused.

(** C58: the ranks of the tasks of a job array whose task numbers are first, first + step, ... *)
Lemma array_rank : forall job first step n j d kw, NoDup (dkeys d) -> get d "use_MPI" = Some (LBool false) ->
  exists out, population_section (Env (Some job) (Some first) (Some (first + step * Z.of_nat j)%Z) (Some (Z.of_nat n))) d kw = Ok out /\
    get out "RANK" = Some (Int (step * Z.of_nat j)) /\ get out "size" = Some (Int (Z.of_nat n)) /\ get out "JOB_ID" = Some (Int job).
Proof.
  intros job first step n j d kw ND M. unfold population_section. cbv zeta. rewrite (dget_dset_all String.eqb_spec), last_write_lits, M by exact ND.
  cbn [option_map is_true e_job e_min e_id e_count env_int rbind]. eexists. split; [reflexivity|].
  rewrite !(dget_dset String.eqb_spec). cbn. split; [|split; reflexivity]. do 2 f_equal. lia.
Qed.
(** Without gaps, the j-th of n tasks gets rank j: every rank below n once. *)
Theorem array_ranks : forall job first n j d kw, NoDup (dkeys d) -> get d "use_MPI" = Some (LBool false) ->
  exists out, population_section (Env (Some job) (Some first) (Some (first + Z.of_nat j)%Z) (Some (Z.of_nat n))) d kw = Ok out /\
    get out "RANK" = Some (Int (Z.of_nat j)) /\ get out "size" = Some (Int (Z.of_nat n)) /\ get out "JOB_ID" = Some (Int job).
Proof.
  intros job first n j d kw ND M. destruct (array_rank job first 1 n j d kw ND M) as [out E]. rewrite Z.mul_1_l in E. exists out. exact E.
Qed.
(** With a step above one, the last task gets a rank that is not below the number of tasks. *)
Theorem array_rank_refuted : forall job first step n d kw, (1 < step)%Z -> 2 <= n -> NoDup (dkeys d) -> get d "use_MPI" = Some (LBool false) ->
  exists out r, population_section (Env (Some job) (Some first) (Some (first + step * Z.of_nat (n - 1))%Z) (Some (Z.of_nat n))) d kw = Ok out /\
    get out "RANK" = Some (Int r) /\ get out "size" = Some (Int (Z.of_nat n)) /\ (Z.of_nat n <= r)%Z.
Proof.
  intros job first step n d kw S N ND M. destruct (array_rank job first step n (n - 1) d kw ND M) as [out [E [R [Z _]]]].
  exists out, (step * Z.of_nat (n - 1))%Z. split; [exact E|]. split; [exact R|]. split; [exact Z | nia].
Qed.
Print Assumptions array_ranks.
Print Assumptions array_rank_refuted.

Definition ex_population : list (string * list (string * string)) :=
  [("DEFAULT", []); ("BinaryPopulation_options", [("use_MPI", "False"); ("number_of_binaries", "10")]);
   ("BinaryStar_output", [("only_select_columns", "None")]);
   ("SingleStar_1_output", [("include_S1", "True"); ("scalar_names", "None")]); ("SingleStar_2_output", [("include_S2", "False"); ("scalar_names", "None")])].
Example population_case :
  binarypop_kwargs ex_literal (Env (Some 77%Z) (Some 3%Z) (Some 5%Z) (Some 4%Z)) ex_population =
    Ok [("use_MPI", Lit (LBool false)); ("number_of_binaries", Lit (LNum 10)); ("comm", Missing); ("JOB_ID", Int 77%Z); ("RANK", Int 2%Z); ("size", Int 4%Z);
        ("only_select_columns", Lit LNone); ("include_S1", Lit (LBool true)); ("S1_kwargs", Options [("scalar_names", LNone)]); ("include_S2", Lit (LBool false))].
Proof. vm_compute. reflexivity. Qed.
