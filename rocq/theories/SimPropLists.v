(** Loading all steps, sequences of calls, and construction. *)
From Coq Require Import String List Bool ZArith PeanoNat Lia.
From Verif Require Import PyBase PyStr PyList SimPropModel SimPropProofs SimPropLoad.
Import ListNotations.
Open Scope string_scope.
Open Scope list_scope.
Open Scope nat_scope.

(** The matchers in use were trained with the options they have. *)
Definition live_trained {Class Object} (p : properties Class Object) : Prop :=
  forall a i x, dget met_eqb (p_matchers _ _ p) a = Some i -> nth_error (p_heap _ _ p) i = Some x -> trained x.

Section Lists.
  Variable Class Object : Type.
  Local Notation P := (properties Class Object).
  Local Notation matchers := (p_matchers Class Object).
  Local Notation heap := (p_heap Class Object).
  Local Notation Entry := (entry Class Object).
  Variable defaults : Class -> option (list string).
  Variable build : Class -> options -> result Object.
  Variable open_grid : string -> option exn.
  Variable train : options -> option exn.
  Local Notation load := (load_a_step Class Object defaults build open_grid train).

  Definition admissible (name : string) (c : Class) (d : options) : Prop :=
    ~ In name path_names /\ plain_options d /\ sound_class _ defaults c.

  (** The object a class makes: with the options, or without any if they do not suit it. *)
  Definition made (c : Class) (d : options) (o : Object) : Prop :=
    build c d = Ok o \/ build c d = Raise TypeError /\ build c [] = Ok o.

  Lemma load_spec : forall hms hems (p : P) name c d m rng p' d' r, good _ _ hms hems p -> admissible name c d ->
    load p name c d m rng = (p', d', r) ->
    good _ _ hms hems p' /\ plain_options d' /\ p_kwargs _ _ p' = p_kwargs _ _ p /\ others_kept _ _ p p' name /\
    (forall n, n <> name -> get (p_attrs _ _ p') n = get (p_attrs _ _ p) n) /\
    (r = Ok tt -> exists q o, made c d' o /\ p' = attach _ _ q name o /\ get (p_attrs _ _ p') name = Some (Built _ _ o) /\ same_rest p q /\
       (name = "flow" -> q = p /\ d' = d) /\
       (name <> "flow" -> check_step _ _ defaults open_grid train p m rng name c d = (q, d', Ok tt))).
  Proof using Type.
    intros hms hems p name c d m rng p' d' r G [NP [PO SC]] H. unfold load_a_step in H.
    destruct (if String.eqb name "flow" then (p, d, Ok tt) else check_step _ _ defaults open_grid train p m rng name c d) as [[q dq] rq] eqn:C.
    assert (good _ _ hms hems q /\ plain_options dq /\ same_rest p q /\ others_kept _ _ p q name) as [GQ [PQ [SQ OQ]]].
    { destruct (String.eqb name "flow").
      - assert (q = p /\ dq = d) as [-> ->] by (split; congruence). split; [exact G|]. split; [exact PO|]. split; [repeat split|]. intros ? ? ?. split; reflexivity.
      - destruct (check_step_spec _ _ open_grid train defaults hms hems p m rng name c d q dq rq G PO SC C) as [A [B [E [F _]]]]. tauto. }
    destruct SQ as [S1 [S2 [S3 [S4 S5]]]].
    destruct rq as [[]|e].
    - destruct (match build c dq with Raise TypeError => build c [] | r => r end) as [o|e] eqn:B.
      + assert (p' = attach _ _ q name o /\ d' = dq /\ r = Ok tt) as [-> [-> ->]] by (repeat split; congruence).
        split; [apply good_attach; assumption|]. split; [exact PQ|]. split; [exact S1|]. split; [exact OQ|].
        assert (get (p_attrs _ _ (attach _ _ q name o)) name = Some (Built _ _ o)) as GA by (cbn [attach p_attrs]; apply (dget_dset_same String.eqb_spec)).
        split.
        * intros n N. cbn [attach p_attrs]. rewrite (dget_dset_other String.eqb_spec) by exact N. rewrite S2. reflexivity.
        * intros _. exists q, o. split.
          { unfold made. destruct (build c dq) as [o'|e']; [left; exact B|]. destruct e'; try discriminate. right. split; [reflexivity | exact B]. }
          split; [reflexivity|]. split; [exact GA|]. split; [repeat split; assumption|].
          destruct (String.eqb_spec name "flow") as [-> |NF].
          -- split; [intros _; split; congruence | congruence].
          -- split; [intro; contradiction|]. intros _. exact C.
      + assert (p' = q /\ d' = dq /\ r = Raise e) as [-> [-> ->]] by (repeat split; congruence).
        split; [exact GQ|]. split; [exact PQ|]. split; [exact S1|]. split; [exact OQ|]. split; [|discriminate]. intros n _. rewrite S2. reflexivity.
    - assert (p' = q /\ d' = dq /\ r = Raise e) as [-> [-> ->]] by (repeat split; congruence).
      split; [exact GQ|]. split; [exact PQ|]. split; [exact S1|]. split; [exact OQ|]. split; [|discriminate]. intros n _. rewrite S2. reflexivity.
  Qed.

  (** ** load_steps *)
  Lemma good_kwargs : forall hms hems (p : P) kw, good _ _ hms hems p -> good _ _ hms hems (set_kwargs _ _ p kw).
  Proof using Type. intros hms hems p kw G. exact G. Qed.

  Definition all_admissible (l : list (string * Entry)) : Prop := forall name c d, In (name, Tuple _ _ c d) l -> admissible name c d.

  Lemma load_list_good : forall l hms hems m rng (p : P), good _ _ hms hems p -> all_admissible l ->
    good _ _ hms hems (fst (load_list _ _ defaults build open_grid train l m rng p)).
  Proof using Type.
    induction l as [|[name e] l IH]; intros hms hems m rng p G A; [exact G|].
    assert (all_admissible l) as A' by (intros n c d I; apply A; right; exact I).
    destruct e as [c d|v|ns|o]; cbn [load_list]; try (apply IH; assumption).
    destruct (load p name c d _ rng) as [[q d'] r] eqn:L.
    destruct (load_spec hms hems _ _ _ _ _ _ _ _ _ G (A name c d (or_introl eq_refl)) L) as [GQ _].
    destruct r as [[]|e]; [apply IH; [apply good_kwargs; exact GQ | exact A'] | apply good_kwargs; exact GQ].
  Qed.
  (** What the loop leaves of the dictionary of steps. *)
  Lemma load_list_admissible : forall l hms hems m rng (p : P), good _ _ hms hems p -> all_admissible l ->
    (forall n c d, get (p_kwargs _ _ p) n = Some (Tuple _ _ c d) -> admissible n c d) ->
    forall n c d, get (p_kwargs _ _ (fst (load_list _ _ defaults build open_grid train l m rng p))) n = Some (Tuple _ _ c d) -> admissible n c d.
  Proof using Type.
    induction l as [|[name e] l IH]; intros hms hems m rng p G A K; [exact K|].
    assert (all_admissible l) as A' by (intros n c d I; apply A; right; exact I).
    destruct e as [c d|v|ns|o]; cbn [load_list]; try (apply (IH hms hems); assumption).
    destruct (load p name c d _ rng) as [[q d'] r] eqn:L.
    pose proof (A name c d (or_introl eq_refl)) as AD.
    destruct (load_spec hms hems _ _ _ _ _ _ _ _ _ G AD L) as [GQ [PQ [KQ _]]].
    assert (forall n c0 d0, get (put (p_kwargs _ _ q) name (Tuple _ _ c d')) n = Some (Tuple _ _ c0 d0) -> admissible n c0 d0) as KQ'.
    { intros n c0 d0 H. rewrite KQ, (dget_dset String.eqb_spec) in H. destruct (String.eqb_spec n name) as [-> |]; [|apply K; exact H].
      assert (c0 = c /\ d0 = d') as [-> ->] by (split; congruence). destruct AD as [X [_ Y]]. split; [exact X|]. split; assumption. }
    destruct r as [[]|e]; [apply (IH hms hems); [apply good_kwargs; exact GQ | exact A' | exact KQ'] | exact KQ'].
  Qed.

  (** The metallicity an entry of the list is offered: the last one an earlier tuple names, else the one passed. *)
  Definition names_metallicity (e : string * Entry) (v : val) : Prop := exists c d, snd e = Tuple _ _ c d /\ get d "metallicity" = Some v.
  Inductive offered (m : val) : list (string * Entry) -> val -> Prop :=
  | offered_none : forall l, (forall e v, In e l -> ~ names_metallicity e v) -> offered m l m
  | offered_last : forall l1 e l2 v, names_metallicity e v -> (forall e v, In e l2 -> ~ names_metallicity e v) -> offered m (l1 ++ e :: l2) v.
  Lemma offered_cons_none : forall m l v e, offered m l v -> (forall v, ~ names_metallicity e v) -> offered m (e :: l) v.
  Proof using Type.
    intros m l v e H N. destruct H as [l H|l1 e' l2 v H1 H2].
    - constructor. intros e' v [<- |I]; [apply N | apply H; exact I].
    - apply (offered_last m (e :: l1) e' l2 v H1 H2).
  Qed.
  Lemma offered_cons : forall m l v e w, offered w l v -> names_metallicity e w -> offered m (e :: l) v.
  Proof using Type.
    intros m l v e w H N. destruct H as [l H|l1 e' l2 v H1 H2].
    - apply (offered_last m [] e l w N H).
    - apply (offered_last m (e :: l1) e' l2 v H1 H2).
  Qed.

  Lemma all_loaded_put : forall (kw : list (string * Entry)) attrs name c d c0 d0, get kw name = Some (Tuple _ _ c0 d0) ->
    all_loaded _ _ (put kw name (Tuple _ _ c d)) attrs = all_loaded _ _ kw attrs.
  Proof using Type.
    induction kw as [|[k v] kw IH]; intros attrs name c d c0 d0 H; [discriminate|]. cbn [dget] in H. cbn [dset].
    destruct (String.eqb_spec name k) as [-> |N].
    - assert (v = Tuple _ _ c0 d0) as -> by congruence. reflexivity.
    - unfold all_loaded in *. cbn [forallb]. rewrite (IH attrs name c d c0 d0 H). reflexivity.
  Qed.

  Lemma load_list_spec : forall l hms hems m rng (p p' : P), good _ _ hms hems p -> all_admissible l -> NoDup (dkeys l) ->
    (forall n e, In (n, e) l -> get (p_kwargs _ _ p) n = Some e) ->
    load_list _ _ defaults build open_grid train l m rng p = (p', Ok tt) ->
    dkeys (p_kwargs _ _ p') = dkeys (p_kwargs _ _ p) /\
    (forall n, (forall c d, ~ In (n, Tuple _ _ c d) l) -> get (p_kwargs _ _ p') n = get (p_kwargs _ _ p) n /\ get (p_attrs _ _ p') n = get (p_attrs _ _ p) n) /\
    (p_loaded _ _ p' = if existsb (fun e => is_tuple _ _ (snd e)) l then all_loaded _ _ (p_kwargs _ _ p') (p_attrs _ _ p') else p_loaded _ _ p) /\
    (live_trained p -> live_trained p') /\
    forall pre name c d post, l = pre ++ (name, Tuple _ _ c d) :: post ->
      exists d' o v, get (p_kwargs _ _ p') name = Some (Tuple _ _ c d') /\ get (p_attrs _ _ p') name = Some (Built _ _ o) /\ made c d' o /\
        offered m pre v /\
        (name <> "flow" -> exists names, defaults c = Some names /\
           (In "metallicity" names -> get d' "metallicity" = Some (metallicity_used d v))).
  Proof using Type.
    induction l as [|[name e] l IH]; intros hms hems m rng p p' G A ND K H.
    - cbn [load_list] in H. assert (p' = p) as -> by congruence. split; [reflexivity|]. split; [intros; split; reflexivity|]. split; [reflexivity|].
      split; [intro; assumption|]. intros [|? ?] ? ? ? ? E; discriminate E.
    - assert (all_admissible l) as A' by (intros n c d I; apply A; right; exact I).
      inversion ND as [|? ? NI ND']; subst.
      assert (forall n e, In (n, e) l -> n <> name) as NN by (intros n e' I ->; apply NI; apply (in_map fst) in I; exact I).
      assert (NOT : forall v, is_tuple _ _ v = false -> e = v -> load_list _ _ defaults build open_grid train l m rng p = (p', Ok tt) ->
        dkeys (p_kwargs _ _ p') = dkeys (p_kwargs _ _ p) /\
        (forall n, (forall c d, ~ In (n, Tuple _ _ c d) ((name, e) :: l)) -> get (p_kwargs _ _ p') n = get (p_kwargs _ _ p) n /\ get (p_attrs _ _ p') n = get (p_attrs _ _ p) n) /\
        (p_loaded _ _ p' = if existsb (fun e => is_tuple _ _ (snd e)) ((name, e) :: l) then all_loaded _ _ (p_kwargs _ _ p') (p_attrs _ _ p') else p_loaded _ _ p) /\
        (live_trained p -> live_trained p') /\
        forall pre name' c d post, (name, e) :: l = pre ++ (name', Tuple _ _ c d) :: post ->
          exists d' o v, get (p_kwargs _ _ p') name' = Some (Tuple _ _ c d') /\ get (p_attrs _ _ p') name' = Some (Built _ _ o) /\ made c d' o /\
            offered m pre v /\
            (name' <> "flow" -> exists names, defaults c = Some names /\
               (In "metallicity" names -> get d' "metallicity" = Some (metallicity_used d v)))).
      { intros v NV -> H'. destruct (IH hms hems m rng p p' G A' ND') as [I1 [I2 [I3 [I4 I5]]]]; [intros n e' I; apply K; right; exact I | exact H'|].
        split; [exact I1|]. split; [intros n N; apply I2; intros c d I; apply (N c d); right; exact I|]. split; [cbn [existsb snd]; rewrite NV; exact I3|].
        split; [exact I4|]. intros pre name' c d post E. destruct pre as [|e0 pre].
        - exfalso. assert (v = Tuple _ _ c d) as -> by (cbn [app] in E; congruence). discriminate NV.
        - cbn [app] in E. assert (e0 = (name, v)) as -> by congruence. assert (l = pre ++ (name', Tuple _ _ c d) :: post) as E' by congruence.
          destruct (I5 _ _ _ _ _ E') as [d' [o [w [B1 [B2 [B3 [B4 B5]]]]]]]. exists d', o, w. split; [exact B1|]. split; [exact B2|]. split; [exact B3|].
          split; [|exact B5]. apply offered_cons_none; [exact B4|]. intros w' [c' [d0 [X _]]]. cbn [snd] in X. rewrite X in NV. discriminate NV. }
      destruct e as [c d|v|ns|o]; [| eapply NOT; [|reflexivity|exact H]; reflexivity ..]. clear NOT.
      cbn [load_list] in H. set (w := match get d "metallicity" with Some v => v | None => m end) in *.
      destruct (load p name c d w rng) as [[q d'] r] eqn:L.
      pose proof (A name c d (or_introl eq_refl)) as AD.
      destruct (load_spec hms hems _ _ _ _ _ _ _ _ _ G AD L) as [GQ [PQ [KQ [OQ [ATQ OKQ]]]]].
      destruct r as [[]|e]; [|discriminate H]. destruct (OKQ eq_refl) as [qq [o [MD [QA [GA [SQ [FL NF]]]]]]].
      set (p1 := set_kwargs _ _ q (put (p_kwargs _ _ q) name (Tuple _ _ c d'))) in *.
      pose proof (K name _ (or_introl eq_refl)) as KN.
      assert (dkeys (p_kwargs _ _ p1) = dkeys (p_kwargs _ _ p)) as KK.
      { unfold p1. cbn [set_kwargs p_kwargs]. rewrite KQ, (dkeys_dset String.eqb_spec). unfold dmem. rewrite KN. reflexivity. }
      assert (get (p_kwargs _ _ p1) name = Some (Tuple _ _ c d')) as KN1 by (unfold p1; cbn [set_kwargs p_kwargs]; apply (dget_dset_same String.eqb_spec)).
      assert (forall n, n <> name -> get (p_kwargs _ _ p1) n = get (p_kwargs _ _ p) n) as KO1.
      { intros n N. unfold p1. cbn [set_kwargs p_kwargs]. rewrite KQ. apply (dget_dset_other String.eqb_spec). exact N. }
      destruct (IH hms hems w rng p1 p' (good_kwargs _ _ _ _ GQ) A' ND') as [I1 [I2 [I3 [I4 I5]]]].
      { intros n e' I. rewrite KO1; [|apply (NN n e' I)]. apply K. right. exact I. }
      { exact H. }
      assert (forall c d, ~ In (name, Tuple _ _ c d) l) as NT by (intros c0 d0 I; apply (NN _ _ I); reflexivity).
      destruct (I2 name NT) as [N1 N2].
      assert (p_loaded _ _ p1 = all_loaded _ _ (p_kwargs _ _ p1) (p_attrs _ _ p1)) as LD.
      { unfold p1. cbn [set_kwargs p_loaded p_kwargs p_attrs]. rewrite KQ. rewrite (all_loaded_put _ _ name c d' c d KN). rewrite QA. cbn [attach p_loaded p_attrs].
        destruct SQ as [S1 _]. rewrite S1. reflexivity. }
      split; [congruence|]. split; [|split; [|split]].
      + intros n N. destruct (I2 n) as [J1 J2]; [intros c0 d0 I; apply (N c0 d0); right; exact I|].
        assert (n <> name) as NE by (intros ->; apply (N c d); left; reflexivity).
        rewrite J1, J2, KO1 by exact NE. split; [reflexivity|]. unfold p1. cbn [set_kwargs p_attrs]. apply ATQ. exact NE.
      + cbn [existsb snd is_tuple orb]. destruct (existsb (fun e => is_tuple _ _ (snd e)) l) eqn:EX; [exact I3|].
        assert (load_list _ _ defaults build open_grid train l w rng p1 = (p1, Ok tt)) as SAME.
        { clear - EX. revert EX. induction l as [|[n e] l IH]; intro EX; [reflexivity|]. cbn [existsb snd] in EX. apply orb_false_iff in EX. destruct EX as [E1 E2].
          destruct e; cbn [is_tuple] in E1; [discriminate E1| | |]; cbn [load_list]; apply IH; exact E2. }
        assert (p' = p1) as -> by congruence. exact LD.
      + intros LT. apply I4. intros a i x MA NX. destruct a as [ma na].
        destruct (String.eqb_spec na name) as [-> |NE].
        * destruct (String.eqb_spec name "flow") as [EF|NFL].
          -- destruct (FL EF) as [EQ _].
             assert (matchers q = matchers p /\ heap q = heap p) as [MQ HQ] by (rewrite QA, EQ; split; reflexivity).
             unfold p1 in MA, NX. cbn [set_kwargs p_matchers p_heap] in MA, NX. rewrite MQ in MA. rewrite HQ in NX. apply (LT _ i x MA NX).
          -- specialize (NF NFL). destruct (check_step_spec _ _ open_grid train defaults hms hems p w rng name c d qq d' (Ok tt) G (proj1 (proj2 AD)) (proj2 (proj2 AD)) NF)
               as [GQQ [_ [_ [_ [_ OKAY]]]]]. destruct (OKAY eq_refl) as [names [i0 [_ [_ [_ [WITHOUT WITH]]]]]].
             assert (matchers q = matchers qq /\ heap q = heap qq) as [MQ HQ] by (rewrite QA; split; reflexivity).
             unfold p1 in MA, NX. cbn [set_kwargs p_matchers p_heap] in MA, NX. rewrite MQ in MA. rewrite HQ in NX.
             destruct (inb_spec String.eqb_spec "track_matcher" names) as [IT|NIT].
             ++ destruct (WITH IT) as [W1 [W2 [x0 [W3 [_ [_ W4]]]]]].
                destruct (val_eqb_spec ma (metallicity_used d w)) as [-> |NM].
                ** assert (i = i0) as -> by congruence. assert (x = x0) as -> by congruence. apply W4. intros j y MJ NJ. apply (LT _ j y MJ NJ).
                ** rewrite (W2 ma NM) in MA. discriminate MA.
             ++ destruct (WITHOUT NIT) as [W1 W2]. rewrite W1 in MA. rewrite W2 in NX. apply (LT _ i x MA NX).
        * destruct (OQ ma na NE) as [O1 O2]. unfold p1 in MA, NX. cbn [set_kwargs p_matchers p_heap] in MA, NX.
          rewrite O1 in MA. rewrite (O2 i MA) in NX. apply (LT _ i x MA NX).
      + intros pre name' c' d0 post E. destruct pre as [|e0 pre]; cbn [app] in E.
        * assert (name' = name /\ c' = c /\ d0 = d) as [-> [-> ->]] by (repeat split; congruence).
          exists d', o, m. split; [congruence|]. split; [rewrite N2; unfold p1; cbn [set_kwargs p_attrs]; exact GA|]. split; [exact MD|].
          split; [apply offered_none; intros ? ? []|]. intro NFL. specialize (NF NFL).
          destruct (check_step_spec _ _ open_grid train defaults hms hems p w rng name c d qq d' (Ok tt) G (proj1 (proj2 AD)) (proj2 (proj2 AD)) NF)
               as [GQQ [_ [_ [_ [_ OKAY]]]]]. destruct (OKAY eq_refl) as [names [i0 [DN [FO _]]]]. exists names. split; [exact DN|]. intro IM.
          rewrite FO. unfold final_options. rewrite !andb_false_r. destruct (inb_spec String.eqb_spec "metallicity" names); [|contradiction].
          assert (metallicity_used d w = metallicity_used d m) as -> by (unfold metallicity_used, w; destruct (get d "metallicity"); reflexivity).
          cbn [andb String.eqb Ascii.eqb Bool.eqb inb dkeys map fst matcher_defaults negb].
          destruct (get grid_steps name); reflexivity.
        * assert (e0 = (name, Tuple _ _ c d)) as -> by congruence. assert (l = pre ++ (name', Tuple _ _ c' d0) :: post) as E' by congruence.
          destruct (I5 _ _ _ _ _ E') as [d1 [o1 [v [B1 [B2 [B3 [B4 B5]]]]]]]. exists d1, o1, v. split; [exact B1|]. split; [exact B2|]. split; [exact B3|].
          split; [|exact B5]. unfold w in B4. destruct (get d "metallicity") as [u|] eqn:GU.
          -- eapply offered_cons; [exact B4|]. exists c, d. split; [reflexivity | exact GU].
          -- apply offered_cons_none; [exact B4|]. intros w' [c1 [d2 [X Y]]]. cbn [snd] in X. assert (d2 = d) as -> by congruence. congruence.
  Qed.
End Lists.

(** ** Construction *)
Section Construct.
  Variable Class Object : Type.
  Local Notation Entry := (entry Class Object).
  Variable abspath : string -> string.
  Variable age_of_universe : Z.
  Variable data : string.

  Definition hook_named (h : hook) : list (string * Entry) := match h with HookName s v => [(s, Plain _ _ v)] | _ => [] end.
  Definition hook_class (h : hook) : list nat := match h with HookClass n => [n] | _ => [] end.

  Lemma add_hooks_spec : forall items (attrs : list (string * Entry)) classes,
    (In NoTuple items /\ add_hooks _ _ items attrs classes = Raise ValueError) \/
    (~ In NoTuple items /\ exists attrs', add_hooks _ _ items attrs classes = Ok (attrs', classes ++ flat_map hook_class items) /\
       attrs' = dset_all String.eqb attrs (flat_map hook_named items)).
  Proof using Type.
    induction items as [|h items IH]; intros attrs classes.
    - right. split; [intros []|]. exists attrs. cbn [flat_map add_hooks]. rewrite app_nil_r. split; reflexivity.
    - destruct h as [n|s v| |]; cbn [add_hooks].
      + destruct (IH attrs (classes ++ [n])) as [[A B]|[A [a [B C]]]]; [left; split; [right; exact A | exact B]|].
        right. split; [intros [X|X]; [discriminate | contradiction]|]. exists a. cbn [flat_map hook_class hook_named app]. rewrite B, <- app_assoc. split; [reflexivity | exact C].
      + destruct (IH (put attrs s (Plain _ _ v)) classes) as [[A B]|[A [a [B C]]]]; [left; split; [right; exact A | exact B]|].
        right. split; [intros [X|X]; [discriminate | contradiction]|]. exists a. cbn [flat_map hook_class hook_named app]. rewrite B. split; [reflexivity | exact C].
      + destruct (IH attrs classes) as [[A B]|[A [a [B C]]]]; [left; split; [right; exact A | exact B]|].
        right. split; [intros [X|X]; [discriminate | contradiction]|]. exists a. cbn [flat_map hook_class hook_named app]. rewrite B. split; [reflexivity | exact C].
      + left. split; [left; reflexivity | reflexivity].
  Qed.

  (** A value from which a path can be made, and the text. *)
  Definition path_text (given : option Entry) (dflt s : string) : Prop :=
    match given with
    | None | Some (Plain _ _ VNone) => s = dflt
    | Some (Plain _ _ (VText t)) => s = t
    | _ => False
    end.
  Lemma set_path_spec : forall (attrs : list (string * Entry)) n dflt given,
    (exists s, path_text given dflt s /\ set_path _ _ abspath attrs n dflt given = Ok (put attrs n (Plain _ _ (VText (abspath s))))) \/
    ((forall s, ~ path_text given dflt s) /\ set_path _ _ abspath attrs n dflt given = Raise TypeError).
  Proof using Type.
    intros attrs n dflt given. unfold path_text, set_path. destruct given as [[c d|v|ns|o]|]; try (right; split; [intros ? []|reflexivity]).
    - destruct v; try (right; split; [intros ? []|reflexivity]); left; eexists; split; reflexivity.
    - left; eexists; split; reflexivity.
  Qed.
  Lemma set_paths_spec : forall (kw : list (string * Entry)) paths attrs, NoDup (dkeys paths) ->
    (exists attrs', set_paths _ _ abspath kw paths attrs = Ok attrs' /\
       (forall k, ~ In k (dkeys paths) -> get attrs' k = get attrs k) /\
       forall n dflt, In (n, dflt) paths -> exists s, path_text (get kw n) dflt s /\ get attrs' n = Some (Plain _ _ (VText (abspath s)))) \/
    (set_paths _ _ abspath kw paths attrs = Raise TypeError /\ exists n dflt, In (n, dflt) paths /\ forall s, ~ path_text (get kw n) dflt s).
  Proof using Type.
    induction paths as [|[n dflt] paths IH]; intros attrs ND.
    - left. exists attrs. split; [reflexivity|]. split; [reflexivity|]. intros ? ? [].
    - inversion ND as [|? ? NI ND']; subst. cbn [set_paths].
      destruct (set_path_spec attrs n dflt (get kw n)) as [[s [S1 S2]]|[S1 S2]]; rewrite S2; cbn [rbind].
      + destruct (IH (put attrs n (Plain _ _ (VText (abspath s)))) ND') as [[a [A1 [A2 A3]]]|[A1 [n' [d' [A2 A3]]]]].
        * left. exists a. split; [exact A1|]. split.
          -- intros k N. rewrite A2 by (intro I; apply N; right; exact I). apply (dget_dset_other String.eqb_spec). intros ->. apply N. left. reflexivity.
          -- intros n' d' [E|I]; [|apply (A3 n' d' I)]. assert (n' = n /\ d' = dflt) as [-> ->] by (split; congruence). exists s. split; [exact S1|].
             rewrite A2 by exact NI. apply (dget_dset_same String.eqb_spec).
        * right. split; [exact A1|]. exists n', d'. split; [right; exact A2 | exact A3].
      + right. split; [reflexivity|]. exists n, dflt. split; [left; reflexivity | exact S1].
  Qed.
End Construct.
