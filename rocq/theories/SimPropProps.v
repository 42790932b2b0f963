(** C49, C50: what a SimulationProperties object holds after construction, and the track matchers of its
    steps after any sequence of loads. *)
From Coq Require Import String List Bool ZArith PeanoNat Lia.
From Verif Require Import PyBase PyStr PyList SimPropModel SimPropProofs SimPropLoad SimPropLists.
Import ListNotations.
Open Scope string_scope.
Open Scope list_scope.
Open Scope nat_scope.

(** ** C49: construction *)
(** The last of the pairs in extra_hooks that names an attribute. *)
Inductive hook_value (k : string) : list hook -> option val -> Prop :=
| hook_none : forall l, (forall v, ~ In (HookName k v) l) -> hook_value k l None
| hook_last : forall l1 v l2, (forall v, ~ In (HookName k v) l2) -> hook_value k (l1 ++ HookName k v :: l2) (Some v).
Definition limit {Class Object} (age : Z) (k : string) : option (entry Class Object) :=
  if String.eqb k "max_simulation_time" then Some (Plain _ _ (VNum age))
  else if String.eqb k "end_events" then Some (Names _ _ [])
  else if String.eqb k "end_states" then Some (Names _ _ [])
  else if String.eqb k "max_n_steps_per_binary" then Some (Plain _ _ (VNum 100))
  else None.
Definition reserved : list string := "flow" :: "extra_hooks" :: step_names.
Definition plain {Class Object} (o : option val) : option (entry Class Object) := option_map (Plain Class Object) o.

Section C49.
  Variable Class Object : Type.
  Local Notation Entry := (entry Class Object).

  Lemma hook_value_write : forall k items o, hook_value k items o ->
    last_write String.eqb (flat_map (hook_named Class Object) items) k = plain o.
  Proof using Type.
    assert (forall k items, (forall v, ~ In (HookName k v) items) -> last_write String.eqb (flat_map (hook_named Class Object) items) k = None) as NONE.
    { intros k items N. apply (last_write_notin _ _ _ String.eqb_spec). intro I. apply in_map_iff in I. destruct I as [[k' v] [E I]]. cbn [fst] in E. subst k'.
      apply in_flat_map in I. destruct I as [h [H1 H2]]. destruct h; cbn [hook_named In] in H2; try tauto. destruct H2 as [H2|[]].
      apply (N v0). assert (name = k) as -> by congruence. exact H1. }
    intros k items o H. destruct H as [l H|l1 v l2 H].
    - apply NONE. exact H.
    - rewrite flat_map_app. cbn [flat_map hook_named app]. rewrite last_write_app.
      change ((k, Plain Class Object v) :: flat_map (hook_named Class Object) l2) with ([(k, Plain Class Object v)] ++ flat_map (hook_named Class Object) l2).
      rewrite last_write_app, (NONE k l2 H). cbn [plain option_map]. unfold last_write. cbn [fold_left fst snd]. rewrite String.eqb_refl. reflexivity.
  Qed.

  Lemma get_if_missing : forall (a : list (string * Entry)) k e k',
    get (if_missing _ _ a k e) k' = or_else (get a k') (if String.eqb k' k then Some e else None).
  Proof using Type.
    intros a k e k'. unfold if_missing, has. destruct (get a k) as [v|] eqn:G.
    - destruct (String.eqb_spec k' k) as [-> |]; [rewrite G; reflexivity|]. destruct (get a k'); reflexivity.
    - rewrite (dget_dset String.eqb_spec). destruct (String.eqb_spec k' k) as [-> |]; [rewrite G; reflexivity|]. destruct (get a k'); reflexivity.
  Qed.
  Lemma dkeys_dset_all : forall (l d : list (string * Entry)), NoDup (dkeys l) -> (forall k, In k (dkeys l) -> ~ In k (dkeys d)) ->
    dkeys (dset_all String.eqb d l) = dkeys d ++ dkeys l.
  Proof using Type.
    induction l as [|[k v] l IH]; intros d ND N; [symmetry; apply app_nil_r|]. inversion ND as [|? ? NI ND']; subst.
    change (dset_all String.eqb d ((k, v) :: l)) with (dset_all String.eqb (put d k v) l).
    assert (dkeys (put d k v) = dkeys d ++ [k]) as E.
    { rewrite (dkeys_dset String.eqb_spec). unfold dmem. destruct (get d k) eqn:G; [|reflexivity]. exfalso. apply (N k); [left; reflexivity|].
      apply (dget_in _ String.eqb_spec). congruence. }
    rewrite IH; [rewrite E, <- app_assoc; reflexivity | exact ND'|]. rewrite E. intros k' I H. apply in_app_or in H. destruct H as [H|[<- |[]]].
    - apply (N k'); [right; exact I | exact H].
    - exact (NI I).
  Qed.
  Lemma combine_keys : forall (names : list string) (es : list Entry), length es = length names -> dkeys (combine names es) = names.
  Proof using Type. induction names as [|n names IH]; intros [|e es] L; try discriminate L; [reflexivity|]. cbn [combine dkeys map fst]. f_equal. apply IH. cbn [length] in L. lia. Qed.

  Variable abspath : string -> string.
  Variable age : Z.
  Variable data : string.
  Local Notation make := (construct Class Object abspath age data).

  (** Which attributes the object has: keyword arguments, unless "step" occurs in their name; then values
      named by extra_hooks; then the limits.  The six paths are set for themselves. *)
  Theorem C49_construction : forall flow steps hooks kwargs p, make flow steps hooks kwargs = Ok p ->
    length steps = length step_names -> NoDup (dkeys kwargs) -> (forall k, In k (dkeys kwargs) -> ~ In k reserved) ->
    (forall k o, ~ In k reserved -> ~ In k (dkeys (default_grid_paths data)) -> hook_value k hooks o ->
       get (p_attrs _ _ p) k =
         if py_in "step" k then or_else (plain o) (limit age k) else or_else (get kwargs k) (or_else (plain o) (limit age k))) /\
    get (p_attrs _ _ p) "flow" = Some flow /\
    (forall k o, In k step_names -> hook_value k hooks o -> get (p_attrs _ _ p) k = plain o) /\
    (forall n dflt, In (n, dflt) (default_grid_paths data) ->
       exists s, path_text _ _ (get kwargs n) dflt s /\ get (p_attrs _ _ p) n = Some (Plain _ _ (VText (abspath s)))) /\
    p_hooks _ _ p = flat_map hook_class hooks /\
    p_step_names _ _ p = filter (py_in "step") (dkeys kwargs) ++ step_names /\
    (forall i n e, nth_error step_names i = Some n -> nth_error steps i = Some e -> get (p_kwargs _ _ p) n = Some e) /\
    p_loaded _ _ p = false /\ p_matchers _ _ p = [].
  Proof using Type.
    intros flow steps hooks kwargs p H LS ND RES. unfold construct in H. cbv zeta in H.
    set (kw := put (dset_all String.eqb (put kwargs "flow" flow) (combine step_names steps)) "extra_hooks" (Names _ _ [])) in *.
    assert (NoDup step_names) as NDS by (clear; repeat constructor; cbn [In]; intuition discriminate).
    pose proof (combine_keys step_names steps LS) as CK.
    assert (NoDup (dkeys (combine step_names steps))) as NDC by (rewrite CK; exact NDS).
    assert (dkeys (put kwargs "flow" flow) = dkeys kwargs ++ ["flow"]) as K1.
    { rewrite (dkeys_dset String.eqb_spec). unfold dmem. destruct (get kwargs "flow") eqn:G; [|reflexivity]. exfalso. apply (RES "flow"); [|left; reflexivity].
      apply (dget_in _ String.eqb_spec). congruence. }
    assert (dkeys (dset_all String.eqb (put kwargs "flow" flow) (combine step_names steps)) = (dkeys kwargs ++ ["flow"]) ++ step_names) as K2.
    { rewrite dkeys_dset_all; [rewrite K1, CK; reflexivity | exact NDC|]. rewrite CK, K1. intros k I J. apply in_app_or in J. destruct J as [J|[<- |[]]].
      - apply (RES k J). right. right. exact I.
      - clear - I. cbn [step_names In] in I. intuition discriminate. }
    assert (dkeys kw = ((dkeys kwargs ++ ["flow"]) ++ step_names) ++ ["extra_hooks"]) as K3.
    { unfold kw. rewrite (dkeys_dset String.eqb_spec), K2. unfold dmem.
      destruct (dget String.eqb (dset_all String.eqb (put kwargs "flow" flow) (combine step_names steps)) "extra_hooks") eqn:G; [|reflexivity].
      exfalso. assert (In "extra_hooks" (dkeys (dset_all String.eqb (put kwargs "flow" flow) (combine step_names steps)))) as I by (apply (dget_in _ String.eqb_spec); congruence).
      rewrite K2 in I. apply in_app_or in I. destruct I as [I|I]; [apply in_app_or in I; destruct I as [I|[I|[]]]|].
      - apply (RES _ I). right. left. reflexivity.
      - discriminate I.
      - clear - I. cbn [step_names In] in I. intuition discriminate. }
    assert (NoDup (dkeys kw)) as NDK.
    { unfold kw. apply (NoDup_dset String.eqb_spec). apply (NoDup_dset_all String.eqb_spec). apply (NoDup_dset String.eqb_spec). exact ND. }
    assert (forall k, get kw k = if String.eqb k "extra_hooks" then Some (Names _ _ []) else
              or_else (get (combine step_names steps) k) (if String.eqb k "flow" then Some flow else get kwargs k)) as GK.
    { intro k. unfold kw. rewrite (dget_dset String.eqb_spec). destruct (String.eqb k "extra_hooks"); [reflexivity|].
      rewrite (dget_dset_all String.eqb_spec), (last_write_get _ _ _ String.eqb_spec) by exact NDC. rewrite (dget_dset String.eqb_spec).
      destruct (get (combine step_names steps) k); reflexivity. }
    destruct (add_hooks_spec Class Object hooks [] []) as [[_ E]|[_ [a [E EA]]]]; [rewrite E in H; discriminate H|]. rewrite E in H. cbn [rbind fst snd app] in H.
    set (attrs1 := if_missing _ _ (if_missing _ _ (if_missing _ _ (if_missing _ _ a _ _) _ _) _ _) _ _) in H.
    set (attrs2 := dset_all String.eqb attrs1 _) in H.
    assert (NoDup (dkeys (default_grid_paths data))) as NDP by (clear; repeat constructor; cbn [In]; intuition discriminate).
    destruct (set_paths_spec Class Object abspath kw (default_grid_paths data) attrs2 NDP) as [[at3 [E3 [O3 P3]]]|[E3 _]]; rewrite E3 in H; cbn [rbind] in H; [|discriminate H].
    assert (p = Properties Class Object kw at3 (flat_map hook_class hooks) (filter (py_in "step") (dkeys kw)) false [] [] [] []) as -> by congruence.
    clear H. cbn [p_attrs p_hooks p_step_names p_kwargs p_loaded p_matchers].
    assert (forall k o, hook_value k hooks o -> get attrs1 k = or_else (plain o) (limit age k)) as G1.
    { intros k o HV. unfold attrs1. rewrite !get_if_missing. rewrite EA, (dget_dset_all String.eqb_spec), (hook_value_write k hooks o HV).
      destruct o as [v|]; cbn [plain option_map or_else dget]; [reflexivity|]. unfold limit.
      destruct (String.eqb k "max_simulation_time"); [reflexivity|]. destruct (String.eqb k "end_events"); [reflexivity|].
      destruct (String.eqb k "end_states"); reflexivity. }
    assert (forall k, get attrs2 k = or_else (if py_in "step" k then None else get kw k) (get attrs1 k)) as G2.
    { intro k. unfold attrs2. rewrite (dget_dset_all String.eqb_spec), (last_write_get _ _ _ String.eqb_spec).
      - rewrite (dget_filter _ (fun k => negb (py_in "step" k))). destruct (py_in "step" k); cbn [negb]; [reflexivity|]. destruct (get kw k); reflexivity.
      - rewrite (filter_keys _ (fun k => negb (py_in "step" k))). apply NoDup_filter. exact NDK. }
    split; [|split; [|split; [|split; [|split; [reflexivity|split; [|split; [|split; reflexivity]]]]]]].
    - intros k o NR NP HV. rewrite O3 by exact NP. rewrite G2, (G1 k o HV), GK.
      destruct (String.eqb_spec k "extra_hooks") as [-> |]; [exfalso; apply NR; right; left; reflexivity|].
      destruct (String.eqb_spec k "flow") as [-> |]; [exfalso; apply NR; left; reflexivity|].
      assert (get (combine step_names steps) k = None) as -> by (apply (dget_None_notin String.eqb_spec); rewrite CK; intro I; apply NR; right; right; exact I).
      cbn [or_else]. destruct (py_in "step" k); reflexivity.
    - rewrite O3 by (clear; cbn; intuition discriminate). rewrite G2, GK.
      assert (get (combine step_names steps) "flow" = None) as -> by (apply (dget_None_notin String.eqb_spec); rewrite CK; clear; cbn [step_names In]; intuition discriminate).
      reflexivity.
    - intros k o I HV. rewrite O3 by (clear - I; cbn [step_names In] in I; cbn; intuition (subst; discriminate)). rewrite G2, (G1 k o HV).
      assert (py_in "step" k = true /\ @limit Class Object age k = None) as [-> ->].
      { clear - I. cbn [step_names In] in I. repeat (destruct I as [<- |I]; [split; reflexivity|]). contradiction. }
      cbn [or_else]. destruct (plain o); reflexivity.
    - intros n dflt I. destruct (P3 n dflt I) as [s [S1 S2]]. exists s. split; [|exact S2]. rewrite GK in S1.
      assert (In n (dkeys (default_grid_paths data))) as IN by (apply (in_map fst) in I; exact I).
      destruct (String.eqb_spec n "extra_hooks") as [-> |]; [exfalso; clear - IN; cbn in IN; intuition discriminate|].
      destruct (String.eqb_spec n "flow") as [-> |]; [exfalso; clear - IN; cbn in IN; intuition discriminate|].
      assert (get (combine step_names steps) n = None) as X.
      { apply (dget_None_notin String.eqb_spec); rewrite CK. clear - IN. cbn in IN. cbn [step_names In]. intuition (subst; discriminate). }
      rewrite X in S1. exact S1.
    - rewrite K3, !filter_app. cbn [filter py_in]. rewrite !app_nil_r. reflexivity.
    - intros i n e N1 N2. rewrite GK. assert (In n step_names) as I by (apply nth_error_In in N1; exact N1).
      destruct (String.eqb_spec n "extra_hooks") as [-> |]; [exfalso; clear - I; cbn [step_names In] in I; intuition discriminate|].
      assert (In (n, e) (combine step_names steps)) as IC.
      { clear - N1 N2. revert i steps N1 N2. generalize step_names. induction l as [|x l IH]; intros [|i] [|y ys] N1 N2; try discriminate.
        - cbn [nth_error] in *. left. congruence.
        - cbn [combine]. right. apply (IH i ys); assumption. }
      rewrite (dget_in_nodup String.eqb_spec _ n e NDC IC). reflexivity.
  Qed.

  (** When construction fails, and how. *)
  Theorem C49_failures : forall flow steps hooks kwargs, length steps = length step_names ->
    (forall k, In k (dkeys kwargs) -> ~ In k reserved) ->
    (In NoTuple hooks <-> make flow steps hooks kwargs = Raise ValueError) /\
    (~ In NoTuple hooks /\ (exists n dflt, In (n, dflt) (default_grid_paths data) /\ forall s, ~ path_text _ _ (get kwargs n) dflt s)
       <-> make flow steps hooks kwargs = Raise TypeError) /\
    (forall e, make flow steps hooks kwargs = Raise e -> e = ValueError \/ e = TypeError).
  Proof using Type.
    intros flow steps hooks kwargs LS RES. unfold construct. cbv zeta.
    set (kw := put (dset_all String.eqb (put kwargs "flow" flow) (combine step_names steps)) "extra_hooks" (Names _ _ [])) in *.
    pose proof (combine_keys step_names steps LS) as CK.
    assert (forall n, In n (dkeys (default_grid_paths data)) -> get kw n = get kwargs n) as GK.
    { intros n I. unfold kw. rewrite (dget_dset_other String.eqb_spec) by (intros ->; clear - I; cbn in I; intuition discriminate).
      rewrite (dget_dset_all String.eqb_spec), (last_write_notin _ _ _ String.eqb_spec).
      - apply (dget_dset_other String.eqb_spec). intros ->. clear - I. cbn in I. intuition discriminate.
      - rewrite CK. clear - I. cbn in I. cbn [step_names In]. intuition (subst; discriminate). }
    destruct (add_hooks_spec Class Object hooks [] []) as [[I E]|[I [a [E EA]]]]; rewrite E; cbn [rbind fst snd].
    - split; [split; [reflexivity | intros _; exact I]|]. split; [split; [tauto | discriminate]|]. intros e X. left. congruence.
    - set (attrs2 := dset_all String.eqb _ _).
      assert (NoDup (dkeys (default_grid_paths data))) as NDP by (clear; repeat constructor; cbn [In]; intuition discriminate).
      destruct (set_paths_spec Class Object abspath kw (default_grid_paths data) attrs2 NDP) as [[at3 [E3 [O3 P3]]]|[E3 [n [dflt [B1 B2]]]]]; rewrite E3; cbn [rbind].
      + split; [split; [tauto | discriminate]|]. split; [split; [|discriminate]|discriminate].
        intros [_ [n [dflt [J1 J2]]]]. exfalso. destruct (P3 n dflt J1) as [s [S1 _]]. apply (J2 s). rewrite <- GK; [exact S1|]. apply (in_map fst) in J1. exact J1.
      + split; [split; [tauto | discriminate]|]. split; [split; [reflexivity|]|].
        * intros _. split; [exact I|]. exists n, dflt. split; [exact B1|]. rewrite <- GK; [exact B2|]. apply (in_map fst) in B1. exact B1.
        * intros e X. right. congruence.
  Qed.

  (** Every keyword honoured?  The limit of the number of steps given as a keyword is not. *)
  Theorem C49_every_keyword_honoured_refuted : forall flow steps kwargs p v, length steps = length step_names -> NoDup (dkeys kwargs) ->
    (forall k, In k (dkeys kwargs) -> ~ In k reserved) -> get kwargs "max_n_steps_per_binary" = Some (Plain _ _ (VNum v)) ->
    make flow steps [] kwargs = Ok p -> get (p_attrs _ _ p) "max_n_steps_per_binary" = Some (Plain _ _ (VNum 100)).
  Proof using Type.
    intros flow steps kwargs p v LS ND RES G H. destruct (C49_construction _ _ _ _ _ H LS ND RES) as [A _].
    rewrite (A "max_n_steps_per_binary" None); [reflexivity| | |].
    - clear. cbn. intuition discriminate.
    - clear. cbn. intuition discriminate.
    - constructor. intros ? [].
  Qed.
End C49.

(** ** C50: track matchers *)
(** The options of matching a user chooses, with the values they have if not given, track_match.py:255-275,
    and those whose change calls for training again. *)
Definition documented : options :=
  [("path", VText "PATH_TO_POSYDON_DATA"); ("matching_method", VText "minimize"); ("matching_tolerance", VNum 100); ("matching_tolerance_hard", VNum 1000);
   ("list_for_matching_HMS", VNone); ("list_for_matching_HeStar", VNone); ("list_for_matching_postMS", VNone);
   ("list_for_matching_postHeMS", VNone); ("record_matching", VNum 0); ("verbose_matching", VNum 0)].
Definition trained_with : list string :=
  ["path"; "metallicity"; "list_for_matching_HMS"; "list_for_matching_HeStar"; "list_for_matching_postMS"; "list_for_matching_postHeMS"].
Section C50.
  Variable Class Object : Type.
  Local Notation P := (properties Class Object).
  Local Notation matchers := (p_matchers Class Object).
  Local Notation heap := (p_heap Class Object).
  Variable defaults : Class -> option (list string).
  Variable build : Class -> options -> result Object.
  Variable open_grid : string -> option exn.
  Variable train : options -> option exn.
  Local Notation load := (load_a_step Class Object defaults build open_grid train).
  Local Notation load_all := (load_steps Class Object defaults build open_grid train).
  Local Notation ok := (admissible Class defaults).

  (** Each matcher belongs to one metallicity and one step, and has that metallicity and its grids; no two
      share; a step has at most one; the grids in use are kept. *)
  Definition well_matched (p : P) : Prop :=
    exists hms hems,
      get (p_attrs _ _ p) "single_HMS_path" = Some (Plain _ _ (VText hms)) /\ get (p_attrs _ _ p) "single_HeMS_path" = Some (Plain _ _ (VText hems)) /\
      (forall m n i, dget met_eqb (matchers p) (m, n) = Some i -> exists x z,
         nth_error (heap p) i = Some x /\ zstring m = Ok z /\ get (m_options x) "metallicity" = Some m /\
         get (m_options x) "grid_Hrich" = Some (VGrid (hms ++ "/" ++ z ++ "_Zsun.h5")%string) /\
         get (m_options x) "grid_strippedHe" = Some (VGrid (hems ++ "/" ++ z ++ "_Zsun.h5")%string) /\
         dget val_eqb (p_Hrich _ _ p) m = Some (hms ++ "/" ++ z ++ "_Zsun.h5")%string /\
         dget val_eqb (p_strippedHe _ _ p) m = Some (hems ++ "/" ++ z ++ "_Zsun.h5")%string) /\
      (forall a b i, dget met_eqb (matchers p) a = Some i -> dget met_eqb (matchers p) b = Some i -> a = b) /\
      (forall m m' n, dget met_eqb (matchers p) (m, n) <> None -> dget met_eqb (matchers p) (m', n) <> None -> m = m').
  Definition sound (p : P) : Prop :=
    (exists hms hems, good _ _ hms hems p) /\ NoDup (dkeys (p_kwargs _ _ p)) /\
    (forall n c d, get (p_kwargs _ _ p) n = Some (Tuple _ _ c d) -> ok n c d).
  Lemma path_attr : forall (p : P) n s, path_of _ _ p n = Ok s <-> get (p_attrs _ _ p) n = Some (Plain _ _ (VText s)).
  Proof using Type.
    intros p n s. unfold path_of. destruct (get (p_attrs _ _ p) n) as [[c d|v|ns|o]|]; try (split; discriminate).
    destruct v; try (split; discriminate). split; intro H; congruence.
  Qed.
  Lemma sound_matched : forall p, sound p -> well_matched p.
  Proof using Type.
    intros p [[hms [hems [K [GN [HF [HI H1]]]]]] _]. exists hms, hems. pose proof GN as [P1 [P2 GG]]. split; [apply path_attr; exact P1|]. split; [apply path_attr; exact P2|].
    split; [|split; assumption]. intros m n i G. destruct (HF m n i G) as [x [NX [[z [Z [X1 X2]]] [XM _]]]].
    exists x, z. split; [exact NX|]. split; [exact Z|]. split; [exact XM|]. split; [exact X1|]. split; [exact X2|].
    destruct K as [_ [_ [_ K]]]. destruct (K m n) as [K1 K2]; [congruence|].
    destruct (dget val_eqb (p_Hrich _ _ p) m) as [f1|] eqn:F1; [|congruence]. destruct (dget val_eqb (p_strippedHe _ _ p) m) as [f2|] eqn:F2; [|congruence].
    destruct (proj1 (GG m f1) F1) as [z1 [Z1 ->]]. destruct (proj2 (GG m f2) F2) as [z2 [Z2 ->]].
    assert (z1 = z) as -> by congruence. assert (z2 = z) as -> by congruence. split; reflexivity.
  Qed.

  (** Any calls, each ending as it may. *)
  Inductive call := Load (name : string) (c : Class) (d : options) (m rng : val) | LoadAll (m rng : val).
  Definition allowed (k : call) : Prop := match k with Load n c d _ _ => ok n c d | LoadAll _ _ => True end.
  Definition perform (p : P) (k : call) : P :=
    match k with Load n c d m rng => fst (fst (load p n c d m rng)) | LoadAll m rng => fst (load_all p m rng) end.
  Lemma load_list_nodup : forall l m rng (p : P), NoDup (dkeys (p_kwargs _ _ p)) -> all_admissible _ _ defaults l -> (exists hms hems, good _ _ hms hems p) ->
    NoDup (dkeys (p_kwargs _ _ (fst (load_list _ _ defaults build open_grid train l m rng p)))).
  Proof using Type.
    induction l as [|[name e] l IH]; intros m rng p ND A G; [exact ND|].
    assert (all_admissible _ _ defaults l) as A' by (intros n c d I; apply A; right; exact I).
    destruct e as [c d|v|ns|o]; cbn [load_list]; try (apply IH; assumption).
    destruct (load p name c d _ rng) as [[q d'] r] eqn:L. destruct G as [hms [hems G]].
    destruct (load_spec _ _ defaults build open_grid train hms hems _ _ _ _ _ _ _ _ _ G (A name c d (or_introl eq_refl)) L) as [GQ [_ [KQ _]]].
    assert (NoDup (dkeys (put (p_kwargs _ _ q) name (Tuple _ _ c d')))) as NQ by (apply (NoDup_dset String.eqb_spec); rewrite KQ; exact ND).
    destruct r as [[]|e]; [apply IH; [exact NQ | exact A' | exists hms, hems; exact GQ] | exact NQ].
  Qed.
  Lemma sound_list : forall p, sound p -> all_admissible _ _ defaults (p_kwargs _ _ p).
  Proof using Type. intros p [_ [ND A]] n c d I. apply A. apply (dget_in_nodup String.eqb_spec); assumption. Qed.
  Lemma perform_sound : forall k p, sound p -> allowed k -> sound (perform p k).
  Proof using Type.
    intros k p S AL. pose proof S as [[hms [hems G]] [ND A]]. destruct k as [n c d m rng|m rng]; cbn [perform allowed] in *.
    - destruct (load p n c d m rng) as [[p' d'] r] eqn:L. cbn [fst].
      destruct (load_spec _ _ defaults build open_grid train hms hems _ _ _ _ _ _ _ _ _ G AL L) as [GQ [_ [KQ _]]].
      split; [exists hms, hems; exact GQ|]. rewrite KQ. split; assumption.
    - pose proof (sound_list p S) as AA. split; [exists hms, hems; apply load_list_good; assumption|]. split.
      + apply load_list_nodup; [exact ND | exact AA | exists hms, hems; exact G].
      + apply (load_list_admissible _ _ defaults build open_grid train _ hms hems m rng p G AA A).
  Qed.
  Theorem C50_constructed_sound : forall abspath age data flow steps hooks kwargs p,
    construct Class Object abspath age data flow steps hooks kwargs = Ok p ->
    length steps = length step_names -> NoDup (dkeys kwargs) -> (forall k, In k (dkeys kwargs) -> ~ In k reserved) ->
    (forall n c d, In (n, Tuple _ _ c d) (("flow", flow) :: combine step_names steps ++ kwargs) -> ok n c d) -> sound p /\ live_trained p.
  Proof using Type.
    intros abspath age data flow steps hooks kwargs p H LS ND RES AD. split; [|].
    2: { intros a i x G. destruct (C49_construction _ _ abspath age data flow steps hooks kwargs p H LS ND RES) as [_ [_ [_ [_ [_ [_ [_ [_ M]]]]]]]]. rewrite M in G. discriminate G. }
    destruct (C49_construction _ _ abspath age data flow steps hooks kwargs p H LS ND RES) as [_ [_ [_ [PT _]]]].
      destruct (PT "single_HMS_path" _ (or_introl eq_refl)) as [s1 [_ E1]]. destruct (PT "single_HeMS_path" _ (or_intror (or_introl eq_refl))) as [s2 [_ E2]].
      unfold construct in H. cbv zeta in H. destruct (add_hooks Class Object hooks [] []) as [[a cl]|e]; cbn [rbind fst snd] in H; [|discriminate H].
      destruct (set_paths _ _ _ _ _ _) as [at3|e] in H; cbn [rbind] in H; [|discriminate H].
      assert (p = Properties Class Object (put (dset_all String.eqb (put kwargs "flow" flow) (combine step_names steps)) "extra_hooks" (Names _ _ [])) at3 cl
                   (filter (py_in "step") (dkeys (put (dset_all String.eqb (put kwargs "flow" flow) (combine step_names steps)) "extra_hooks" (Names _ _ [])))) false [] [] [] []) as EP by congruence.
      split; [|split].
      - exists (abspath s1), (abspath s2). apply path_attr in E1. apply path_attr in E2.
        split; [|split; [|split; [|split]]].
        + rewrite EP. split; [constructor|]. split; [constructor|]. split; [constructor|]. intros m n X. exfalso. apply X. reflexivity.
        + split; [exact E1|]. split; [exact E2|]. rewrite EP. intros m f. split; discriminate.
        + rewrite EP. discriminate.
        + rewrite EP. discriminate.
        + rewrite EP. intros m m' n X. exfalso. apply X. reflexivity.
      - rewrite EP. cbn [p_kwargs]. apply (NoDup_dset String.eqb_spec). apply (NoDup_dset_all String.eqb_spec). apply (NoDup_dset String.eqb_spec). exact ND.
      - rewrite EP. cbn [p_kwargs]. intros n c d G. rewrite (dget_dset String.eqb_spec) in G. destruct (String.eqb n "extra_hooks"); [discriminate G|].
        rewrite (dget_dset_all String.eqb_spec) in G. apply AD.
        rewrite (last_write_get _ _ _ String.eqb_spec) in G by (rewrite combine_keys by exact LS; clear; repeat constructor; cbn [In]; intuition discriminate).
        destruct (get (combine step_names steps) n) as [e|] eqn:GC.
        + assert (e = Tuple _ _ c d) as -> by congruence. right. apply in_or_app. left. apply (dget_Some_in String.eqb_spec). exact GC.
        + rewrite (dget_dset String.eqb_spec) in G. destruct (String.eqb_spec n "flow") as [-> |].
          * assert (flow = Tuple _ _ c d) as -> by congruence. left. reflexivity.
          * right. apply in_or_app. right. apply (dget_Some_in String.eqb_spec). exact G.
  Qed.
  Theorem C50_matchers_after_any_calls : forall p calls, sound p -> (forall k, In k calls -> allowed k) ->
    sound (fold_left perform calls p) /\ well_matched (fold_left perform calls p).
  Proof using Type.
    intros p calls S AL. assert (sound (fold_left perform calls p)) as X; [|split; [exact X | apply sound_matched; exact X]].
    revert p S. induction calls as [|k calls IH]; intros p S; [exact S|]. cbn [fold_left]. apply IH.
    - intros k' I. apply AL. right. exact I.
    - apply perform_sound; [exact S|]. apply AL. left. reflexivity.
  Qed.

  (** A successful load of a step that matches tracks. *)
  Theorem C50_load : forall p name c d m rng p' d' names, sound p -> ok name c d -> name <> "flow" ->
    defaults c = Some names -> In "track_matcher" names ->
    load p name c d m rng = (p', d', Ok tt) ->
    let Z := metallicity_used d m in
    exists i x o,
      get (p_attrs _ _ p') name = Some (Built _ _ o) /\ made _ _ build c d' o /\
      get d' "metallicity" = Some Z /\ get d' "track_matcher" = Some (VMatcher i) /\
      dget met_eqb (matchers p') (Z, name) = Some i /\ nth_error (heap p') i = Some x /\
      (forall m', m' <> Z -> dget met_eqb (matchers p') (m', name) = None) /\
      (* its options: those given, else those of the matcher there was for this metallicity and step, else the defaults *)
      (forall k v, In (k, v) documented -> get (m_options x) k =
         or_else (get d k) (match dget met_eqb (matchers p) (Z, name) with
                            | Some j => match nth_error (heap p) j with Some y => get (m_options y) k | None => None end
                            | None => Some v end)) /\
      (* the matcher there was is used again exactly if no option that matters for training is given another value *)
      (dget met_eqb (matchers p) (Z, name) = Some i <->
         exists j y, dget met_eqb (matchers p) (Z, name) = Some j /\ nth_error (heap p) j = Some y /\
           ~ exists k g, In k trained_with /\ get d k = Some g /\ get (m_options y) k <> Some g) /\
      (* the matchers of the other steps stay as they are *)
      (forall m' n, n <> name -> dget met_eqb (matchers p') (m', n) = dget met_eqb (matchers p) (m', n) /\
         forall j, dget met_eqb (matchers p) (m', n) = Some j -> nth_error (heap p') j = nth_error (heap p) j) /\
      (* and all are trained with the options they have, if they were *)
      (live_trained p -> live_trained p').
  Proof using Type.
    intros p name c d m rng p' d' names [[hms [hems G]] _] AD NF DN IT L Z.
    destruct (load_spec _ _ defaults build open_grid train hms hems _ _ _ _ _ _ _ _ _ G AD L) as [_ [_ [_ [OT [_ OKQ]]]]].
    destruct (OKQ eq_refl) as [q [o [MD [-> [GA [_ [_ CS]]]]]]]. specialize (CS NF).
    destruct AD as [_ [PO SC]].
    destruct (check_step_spec _ _ open_grid train defaults hms hems p m rng name c d q d' (Ok tt) G PO SC CS) as [_ [_ [_ [OQ [_ OKAY]]]]].
    destruct (OKAY eq_refl) as [names' [i [DN' [FO [_ [_ WITH]]]]]]. assert (names' = names) as -> by congruence. clear DN'.
    destruct (WITH IT) as [W1 [W2 [x [W3 [W4 [W5 W6]]]]]]. exists i, x, o. fold Z in W1, W2, W4, W5, W6.
    assert (inb String.eqb "track_matcher" names = true) as ITB by (destruct (inb_spec String.eqb_spec "track_matcher" names); [reflexivity | contradiction]).
    assert (inb String.eqb "metallicity" names = true) as IMB by (destruct (inb_spec String.eqb_spec "metallicity" names) as [|X]; [reflexivity | exfalso; apply X; apply (SC names DN IT)]).
    split; [exact GA|]. split; [exact MD|]. split.
    { rewrite FO. unfold final_options. rewrite ITB, IMB, !andb_false_r. cbn [andb String.eqb Ascii.eqb Bool.eqb]. destruct (get grid_steps name); reflexivity. }
    split. { rewrite FO. unfold final_options. rewrite ITB, !andb_false_r. reflexivity. }
    split; [exact W1|]. split; [exact W3|]. split; [exact W2|]. split; [|split; [|split; [exact OQ|]]].
    { intros k v I. assert (chosen k /\ get matcher_defaults k = Some v) as [CH DV].
      { clear - I. unfold chosen. cbn [documented In] in I.
        repeat (destruct I as [E|I]; [assert (A := f_equal fst E); assert (B := f_equal snd E); cbn [fst snd] in A, B; subst; cbn; intuition discriminate|]). contradiction. }
      rewrite (W4 k CH), DV. reflexivity. }
    { rewrite W5. split; intros [j [y [A [B C]]]]; exists j, y; (split; [exact A|]; split; [exact B|]); intros [k [g [T [D E]]]]; apply C; exists k, g; (split; [|split; assumption]).
      - clear - T. cbn [trained_with training_triggers In] in *. tauto.
      - destruct PO as [_ [PO1 PO2]]. clear - T D PO1 PO2. cbn [trained_with training_triggers In] in *. intuition (subst; try congruence). }
    intros LT [ma na] j y MJ NJ. cbn [attach p_matchers p_heap] in MJ, NJ.
    destruct (String.eqb_spec na name) as [EN|NE].
    - rewrite EN in MJ. destruct (val_eqb_spec ma Z) as [EZ|NZ].
      + rewrite EZ in MJ. assert (j = i) as -> by congruence. assert (y = x) as -> by congruence. apply W6. intros j' y' A B. apply (LT _ j' y' A B).
      + rewrite (W2 ma NZ) in MJ. discriminate MJ.
    - destruct (OQ ma na NE) as [O1 O2]. rewrite O1 in MJ. rewrite (O2 j MJ) in NJ. apply (LT _ j y MJ NJ).
  Qed.

  (** All steps at once: which metallicity each gets, and that all are there afterwards. *)
  Theorem C50_load_steps : forall p m rng p', sound p -> load_all p m rng = (p', Ok tt) ->
    ((exists n c d, In (n, Tuple _ _ c d) (p_kwargs _ _ p)) -> p_loaded _ _ p' = true) /\
    (live_trained p -> live_trained p') /\
    forall pre name c d post, p_kwargs _ _ p = pre ++ (name, Tuple _ _ c d) :: post ->
      exists d' o v, get (p_kwargs _ _ p') name = Some (Tuple _ _ c d') /\ get (p_attrs _ _ p') name = Some (Built _ _ o) /\ made _ _ build c d' o /\
        offered _ _ m pre v /\
        (name <> "flow" -> exists names, defaults c = Some names /\
           (In "metallicity" names -> get d' "metallicity" = Some (metallicity_used d v))).
  Proof using Type.
    intros p m rng p' S H. pose proof S as [[hms [hems G]] [ND A]]. unfold load_steps in H.
    destruct (load_list_spec _ _ defaults build open_grid train (p_kwargs _ _ p) hms hems m rng p p' G (sound_list p S) ND) as [KK [OTH [LD [LT EACH]]]].
    { intros n e I. apply (dget_in_nodup String.eqb_spec); assumption. }
    { exact H. }
    split; [|split; [exact LT | exact EACH]]. intros [n [c [d I]]]. rewrite LD.
    assert (existsb (fun e => is_tuple _ _ (snd e)) (p_kwargs _ _ p) = true) as ->.
    { apply existsb_exists. exists (n, Tuple _ _ c d). split; [exact I | reflexivity]. }
    unfold all_loaded. apply forallb_forall. intros [n' e'] I'. cbn [fst snd]. destruct e' as [c' d'| | |]; cbn [is_tuple negb orb]; try reflexivity.
    assert (exists c0 d0, In (n', Tuple _ _ c0 d0) (p_kwargs _ _ p)) as [c0 [d0 I0]].
    { assert (In n' (dkeys (p_kwargs _ _ p))) as IK by (rewrite <- KK; apply (in_map fst) in I'; exact I').
      apply in_map_iff in IK. destruct IK as [[n1 e1] [E1 I1]]. cbn [fst] in E1. rewrite E1 in I1.
      destruct e1 as [c1 d1|v1|ns1|o1]; [exists c1, d1; exact I1 | | |]; exfalso.
      all: assert (forall c d, ~ In (n', Tuple _ _ c d) (p_kwargs _ _ p)) as NT by
             (intros c2 d2 I2; pose proof (dget_in_nodup String.eqb_spec _ _ _ ND I1); pose proof (dget_in_nodup String.eqb_spec _ _ _ ND I2); congruence).
      all: destruct (OTH n' NT) as [X _]; rewrite (dget_in_nodup String.eqb_spec _ _ _ ND I1) in X.
      all: assert (get (p_kwargs _ _ p') n' = Some (Tuple _ _ c' d')) as Y by (apply (dget_in_nodup String.eqb_spec); [rewrite KK; exact ND | exact I']).
      all: congruence. }
    apply in_split in I0. destruct I0 as [pre [post E]]. destruct (EACH pre n' c0 d0 post E) as [d1 [o [v [_ [GA _]]]]]. unfold has. rewrite GA. reflexivity.
  Qed.

  (** Loading again with another metallicity changes no step's metallicity. *)
  Theorem C50_reload_keeps_metallicity : forall p m rng p1 m2 rng2 p2, sound p ->
    load_all p m rng = (p1, Ok tt) -> load_all p1 m2 rng2 = (p2, Ok tt) ->
    forall name c d names, In (name, Tuple _ _ c d) (p_kwargs _ _ p) -> name <> "flow" -> defaults c = Some names -> In "metallicity" names ->
      exists Z d1 d2, get (p_kwargs _ _ p1) name = Some (Tuple _ _ c d1) /\ get (p_kwargs _ _ p2) name = Some (Tuple _ _ c d2) /\
        get d1 "metallicity" = Some Z /\ get d2 "metallicity" = Some Z.
  Proof using Type.
    intros p m rng p1 m2 rng2 p2 S H1 H2 name c d names I NF DN IM.
    apply in_split in I. destruct I as [pre [post E]].
    destruct (C50_load_steps p m rng p1 S H1) as [_ [_ EACH]]. destruct (EACH pre name c d post E) as [d1 [o [v [K1 [_ [_ [_ R]]]]]]].
    destruct (R NF) as [names1 [DN1 MET]]. assert (names1 = names) as -> by congruence. specialize (MET IM).
    assert (sound p1) as S1.
    { pose proof (perform_sound (LoadAll m rng) p S I) as X. cbn [perform] in X. rewrite H1 in X. exact X. }
    assert (In (name, Tuple _ _ c d1) (p_kwargs _ _ p1)) as I1 by (apply (dget_Some_in String.eqb_spec); exact K1).
    apply in_split in I1. destruct I1 as [pre1 [post1 E1]].
    destruct (C50_load_steps p1 m2 rng2 p2 S1 H2) as [_ [_ EACH2]]. destruct (EACH2 pre1 name c d1 post1 E1) as [d2 [o2 [v2 [K2 [_ [_ [_ R2]]]]]]].
    destruct (R2 NF) as [names2 [DN2 MET2]]. assert (names2 = names) as -> by congruence. specialize (MET2 IM).
    exists (metallicity_used d v), d1, d2. split; [exact K1|]. split; [exact K2|]. split; [exact MET|]. rewrite MET2. f_equal.
    unfold metallicity_used at 1. rewrite MET. cbn [or_else]. unfold metallicity_used. destruct (or_else (get d "metallicity") (Some v)) as [[]|]; reflexivity.
  Qed.
End C50.

(** ** A small instance *)
(** Classes: 0 the detached step, 1 a step on a grid, 2 the flow chart; anything else has no DEFAULT_KWARGS. *)
Definition the_defaults (c : nat) : option (list string) :=
  match c with 0 => Some ["metallicity"; "track_matcher"; "RNG"] | 1 => Some ["metallicity"; "grid_path"] | 2 => Some [] | _ => None end.
Definition the_build (c : nat) (d : options) : result nat := Ok c.
Definition no_grid_missing (f : string) : option exn := None.
(** Training fails with one list. *)
Definition the_train (o : options) : option exn := match get o "list_for_matching_HMS" with Some (VObj 7) => Some ValueError | _ => None end.
Definition start (detached : options) (hms : options) : result (properties nat nat) :=
  construct nat nat (fun s => ("/" ++ s)%string) 13800 "data" (Tuple _ _ 2 [])
    (Tuple _ _ 1 hms :: repeat (Tuple _ _ 1 []) 3 ++ Tuple _ _ 0 detached :: repeat (Tuple _ _ 0 []) 4 ++ repeat (Tuple _ _ 2 []) 3)
    [HookClass 5; HookName "end_events" (VObj 1); OtherTuple; HookClass 6]
    [("max_n_steps_per_binary", Plain _ _ (VNum 10)); ("max_simulation_time", Plain _ _ (VNum 5)); ("CO_HeMS_path", Plain _ _ (VText "mine"))].
Definition got {A} (r : result A) (dflt : A) : A := match r with Ok a => a | Raise _ => dflt end.
Definition empty : properties nat nat := Properties nat nat [] [] [] [] false [] [] [] [].
Definition started (detached hms : options) : properties nat nat := got (start detached hms) empty.
Notation load_x := (load_a_step nat nat the_defaults the_build no_grid_missing the_train).
Notation load_all_x := (load_steps nat nat the_defaults the_build no_grid_missing the_train).

Example C49_example :
  let p := started [] [] in
  is_ok (start [] []) = true /\ p_hooks _ _ p = [5; 6] /\
  get (p_attrs _ _ p) "max_simulation_time" = Some (Plain _ _ (VNum 5)) /\
  get (p_attrs _ _ p) "end_events" = Some (Plain _ _ (VObj 1)) /\
  get (p_attrs _ _ p) "end_states" = Some (Names _ _ []) /\
  get (p_attrs _ _ p) "max_n_steps_per_binary" = Some (Plain _ _ (VNum 100)) /\
  get (p_attrs _ _ p) "CO_HeMS_path" = Some (Plain _ _ (VText "/mine")) /\
  get (p_attrs _ _ p) "HMS_HMS_path" = Some (Plain _ _ (VText "/data/HMS-HMS")) /\
  p_step_names _ _ p = "max_n_steps_per_binary" :: step_names.
Proof. vm_compute. repeat split. Qed.

Lemma the_classes_sound : forall c, sound_class nat the_defaults c.
Proof. intros [|[|[|c]]] names D I; cbn [the_defaults] in D; try discriminate D; assert (EQ := f_equal (fun o => match o with Some l => l | None => [] end) D); cbn in EQ; subst names; cbn [In] in *; intuition discriminate. Qed.
Definition plainb (d : options) : bool :=
  match get d "grid_Hrich", get d "grid_strippedHe" with None, None => true | _, _ => false end &&
  (fix nd (l : list string) := match l with [] => true | x :: r => negb (inb String.eqb x r) && nd r end) (dkeys d).
Lemma plainb_ok : forall d, plainb d = true -> plain_options d.
Proof.
  intros d H. unfold plainb in H. apply andb_true_iff in H. destruct H as [A B]. split.
  - clear A. induction (dkeys d) as [|x l IH]; [constructor|]. apply andb_true_iff in B. destruct B as [B1 B2]. constructor; [|apply IH; exact B2].
    destruct (inb_spec String.eqb_spec x l); [discriminate B1 | assumption].
  - destruct (get d "grid_Hrich"), (get d "grid_strippedHe"); try discriminate A. split; reflexivity.
Qed.
Lemma started_sound : forall detached hms, plainb detached = true -> plainb hms = true ->
  sound nat nat the_defaults (started detached hms) /\ live_trained (started detached hms).
Proof.
  intros detached hms D1 D2.
  assert (start detached hms = Ok (started detached hms)) as E by reflexivity.
  refine (C50_constructed_sound nat nat the_defaults _ _ _ _ _ _ _ _ E eq_refl _ _ _).
  - repeat constructor; cbn [In dkeys map fst]; intuition discriminate.
  - intros k I. cbn [dkeys map fst In] in I. cbn [reserved step_names In]. intuition (subst; discriminate).
  - intros n c d I. cbn [combine step_names repeat app] in I. cbn [In] in I.
    split; [intro X; cbn [path_names In] in X|split; [apply plainb_ok|apply the_classes_sound]]; intuition (try discriminate; try congruence).
    all: match goal with H : (_, Tuple _ _ _ _) = (_, Tuple _ _ _ _) |- _ =>
           assert (EQ := f_equal (fun e : string * entry nat nat => match snd e with Tuple _ _ _ d => d | _ => [] end) H); cbn in EQ; subst d; first [assumption | reflexivity] end.
Qed.

(** The detached step gets a matcher with the options given; the next load with nothing given uses it again;
    another step has its own; another metallicity replaces it and the grids of the first are closed once no
    step uses them. *)
Example C50_example :
  let p0 := started [] [] in
  let '(p1, d1, r1) := load_x p0 "step_detached" 0 [("matching_method", VText "root"); ("dt", VNum 3)] (VNum 1000) VNone in
  let '(p2, d2, r2) := load_x p1 "step_detached" 0 [] (VNum 1000) VNone in
  let '(p3, d3, r3) := load_x p2 "step_CE" 0 [] (VNum 1000) VNone in
  let '(p4, d4, r4) := load_x p3 "step_detached" 0 [("list_for_matching_HMS", VObj 3)] (VNum 1000) VNone in
  let '(p5, d5, r5) := load_x p4 "step_detached" 0 [] (VNum 100) VNone in
  let '(p6, d6, r6) := load_x p5 "step_CE" 0 [] (VNum 100) VNone in
  forallb is_ok [r1; r2; r3; r4; r5; r6] = true /\
  d1 = [("dt", VNum 3); ("metallicity", VNum 1000); ("track_matcher", VMatcher 0); ("RNG", VNone)] /\
  get d2 "track_matcher" = Some (VMatcher 0) /\ get d3 "track_matcher" = Some (VMatcher 1) /\ get d4 "track_matcher" = Some (VMatcher 2) /\
  option_map (fun x => (get (m_options x) "matching_method", get (m_options x) "list_for_matching_HMS")) (nth_error (p_heap _ _ p4) 2)
    = Some (Some (VText "root"), Some (VObj 3)) /\
  dkeys (p_matchers _ _ p4) = [(VNum 1000, "step_detached"); (VNum 1000, "step_CE")] /\
  dkeys (p_matchers _ _ p5) = [(VNum 1000, "step_CE"); (VNum 100, "step_detached")] /\
  p_Hrich _ _ p5 = [(VNum 1000, "/data/single_HMS/1e-01_Zsun.h5"); (VNum 100, "/data/single_HMS/1e-02_Zsun.h5")] /\
  p_Hrich _ _ p6 = [(VNum 100, "/data/single_HMS/1e-02_Zsun.h5")].
Proof. vm_compute. repeat split. Qed.

(** load_steps: the metallicity of one step reaches the steps after it. *)
Example C50_load_steps_example :
  let p0 := started [] [("metallicity", VNum 1000)] in
  let '(p1, r1) := load_all_x p0 (VNum 100) VNone in
  let '(p2, r2) := load_all_x p1 (VNum 1) VNone in
  r1 = Ok tt /\ p_loaded _ _ p1 = true /\
  map (fun n => match get (p_kwargs _ _ p1) n with Some (Tuple _ _ _ d) => get d "metallicity" | _ => None end) ["step_HMS_HMS"; "step_CO_HeMS"; "step_detached"]
    = [Some (VNum 1000); Some (VNum 1000); Some (VNum 1000)] /\
  r2 = Ok tt /\ get (p_kwargs _ _ p2) "step_detached" = get (p_kwargs _ _ p1) "step_detached".
Proof. vm_compute. repeat split. Qed.

(** ** What is not so *)
(** "Each matcher in use was trained with its options": not after a training that failed.  The options are
    changed before; the next load with the same options finds nothing to do and succeeds. *)
Definition s1 := fst (fst (load_x (started [] []) "step_detached" 0 [] (VNum 1000) VNone)).
Definition s2 := fst (fst (load_x s1 "step_detached" 0 [("list_for_matching_HMS", VObj 7)] (VNum 1000) VNone)).
Theorem C50_always_trained_refuted :
  exists p p' d r p'' d' i x, sound nat nat the_defaults p /\ live_trained p /\
    load_x p "step_detached" 0 [("list_for_matching_HMS", VObj 7)] (VNum 1000) VNone = (p', d, r) /\ is_ok r = false /\
    load_x p' "step_detached" 0 [("list_for_matching_HMS", VObj 7)] (VNum 1000) VNone = (p'', d', Ok tt) /\
    get d' "track_matcher" = Some (VMatcher i) /\ nth_error (p_heap _ _ p'') i = Some x /\ ~ trained x.
Proof.
  destruct (started_sound [] [] eq_refl eq_refl) as [S LT].
  assert (ok : admissible nat the_defaults "step_detached" 0 []).
  { split; [cbn; intuition discriminate|]. split; [apply plainb_ok; reflexivity | apply the_classes_sound]. }
  exists s1, s2. do 6 eexists. split; [|split; [|split; [|split; [|split; [|split; [|split]]]]]].
  - apply (perform_sound nat nat the_defaults the_build no_grid_missing the_train (Load _ "step_detached" 0 [] (VNum 1000) VNone) _ S ok).
  - destruct (C50_load nat nat the_defaults the_build no_grid_missing the_train (started [] []) "step_detached" 0 [] (VNum 1000) VNone s1
        (snd (fst (load_x (started [] []) "step_detached" 0 [] (VNum 1000) VNone))) _ S ok ltac:(discriminate) eq_refl (or_intror (or_introl eq_refl)))
      as [i [x [o [_ [_ [_ [_ [_ [_ [_ [_ [_ [_ X]]]]]]]]]]]]]; [vm_compute; reflexivity|]. apply X. exact LT.
  - unfold s2. vm_compute. reflexivity.
  - reflexivity.
  - vm_compute. reflexivity.
  - reflexivity.
  - reflexivity.
  - intro T. specialize (T "list_for_matching_HMS"). discriminate T. cbn [training_triggers In]. tauto.
Qed.

(** "A step keeps the matching options given for it": not when its metallicity is changed afterwards, as a
    population of several metallicities does; loading took them out of the tuple. *)
Definition changed (p : properties nat nat) (m : val) : properties nat nat :=
  set_kwargs _ _ p (map (fun e => match snd e with Tuple _ _ c d => (fst e, Tuple _ _ c (put d "metallicity" m)) | _ => e end) (p_kwargs _ _ p)).
Definition method_of (p : properties nat nat) (m : val) (name : string) : option val :=
  match dget met_eqb (p_matchers _ _ p) (m, name) with
  | Some i => match nth_error (p_heap _ _ p) i with Some x => get (m_options x) "matching_method" | None => None end
  | None => None
  end.
Theorem C50_options_survive_change_refuted :
  let p0 := started [("matching_method", VText "root")] [] in
  let '(p1, r1) := load_all_x p0 (VNum 1000) VNone in
  let '(p2, r2) := load_all_x (changed p1 (VNum 100)) VNone VNone in
  r1 = Ok tt /\ r2 = Ok tt /\
  method_of p1 (VNum 1000) "step_detached" = Some (VText "root") /\
  method_of p2 (VNum 100) "step_detached" = Some (VText "minimize").
Proof. vm_compute. repeat split. Qed.

(** "Steps not given are skipped": not by load_steps, which fails at the first of them. *)
Theorem C50_missing_step_skipped_refuted : forall Class Object defaults build open_grid train (p : properties Class Object) m rng n c d,
  sound Class Object defaults p -> In (n, Tuple _ _ c d) (p_kwargs _ _ p) -> n <> "flow" -> defaults c = None ->
  snd (load_steps Class Object defaults build open_grid train p m rng) <> Ok tt.
Proof.
  intros Class Object defaults build open_grid train p m rng n c d S I NF DN H.
  destruct (load_steps Class Object defaults build open_grid train p m rng) as [p' r] eqn:E. cbn [snd] in H. rewrite H in E.
  apply in_split in I. destruct I as [pre [post EQ]].
  destruct (C50_load_steps Class Object defaults build open_grid train p m rng p' S E) as [_ [_ EACH]].
  destruct (EACH pre n c d post EQ) as [d' [o [v [_ [_ [_ [_ X]]]]]]]. destruct (X NF) as [names [Y _]]. congruence.
Qed.

(** The metallicities there are names for. *)
Theorem C50_metallicities : forall m z, zstring m = Ok z <->
  In (m, z) [(VNum 20000, "2e+00"); (VNum 10000, "1e+00"); (VNum 4500, "4.5e-01"); (VNum 2000, "2e-01");
             (VNum 1000, "1e-01"); (VNum 100, "1e-02"); (VNum 10, "1e-03"); (VNum 1, "1e-04")].
Proof.
  intros m z. split.
  - intro H. destruct m; try discriminate H. unfold zstring in H.
    repeat match type of H with context [match ?x with _ => _ end] => is_var x; destruct x; try discriminate H end;
      assert (EQ := f_equal (fun r => match r with Ok a => a | Raise _ => "" end) H); cbn in EQ; subst z; cbn [In]; tauto.
  - cbn [In]. intro H. repeat (destruct H as [E|H]; [assert (A := f_equal fst E); assert (B := f_equal snd E); cbn in A, B; subst; reflexivity|]). contradiction.
Qed.

Print Assumptions C49_construction.
Print Assumptions C49_failures.
Print Assumptions C49_every_keyword_honoured_refuted.
Print Assumptions C50_constructed_sound.
Print Assumptions C50_matchers_after_any_calls.
Print Assumptions C50_load.
Print Assumptions C50_load_steps.
Print Assumptions C50_reload_keeps_metallicity.
Print Assumptions C50_always_trained_refuted.
Print Assumptions C50_options_survive_change_refuted.
Print Assumptions C50_missing_step_skipped_refuted.
Print Assumptions C50_metallicities.
