(** Loading steps: what the track matchers of the object are after any calls. *)
From Coq Require Import String List Bool ZArith PeanoNat Lia.
From Verif Require Import PyBase PyStr PyList SimPropModel SimPropProofs.
Import ListNotations.
Open Scope string_scope.
Open Scope list_scope.
Open Scope nat_scope.

(** A matcher fits a metallicity: it has that metallicity and the grids of that metallicity, and all options are set. *)
Definition fits (hms hems : string) (m : val) (x : matcher) : Prop :=
  (exists z, zstring m = Ok z /\ get (m_options x) "grid_Hrich" = Some (VGrid (file_of hms z)) /\
             get (m_options x) "grid_strippedHe" = Some (VGrid (file_of hems z))) /\
  get (m_options x) "metallicity" = Some m /\
  forall k, In k (dkeys matcher_defaults) -> get (m_options x) k <> None.
(** It was trained with the options it has. *)
Definition trained (x : matcher) : Prop := forall k, In k training_triggers -> get (m_trained x) k = get (m_options x) k.
(** Options a user chooses: all but the grids and the metallicity. *)
Definition chosen (k : string) : Prop := In k (dkeys matcher_defaults) /\ k <> "grid_Hrich" /\ k <> "grid_strippedHe" /\ k <> "metallicity".
Definition or_else {A} (a b : option A) : option A := match a with Some _ => a | None => b end.

(** Options as a user writes them: each once, and the grids left to the object. *)
Definition plain_options (d : options) : Prop := NoDup (dkeys d) /\ get d "grid_Hrich" = None /\ get d "grid_strippedHe" = None.
Lemma plain_put : forall d k v, plain_options d -> k <> "grid_Hrich" -> k <> "grid_strippedHe" -> plain_options (put d k v).
Proof.
  intros d k v [ND [A B]] N1 N2. split; [apply (NoDup_dset String.eqb_spec); exact ND|].
  rewrite !(dget_dset_other String.eqb_spec) by congruence. tauto.
Qed.


Section Load.
  Variable Class Object : Type.
  Local Notation P := (properties Class Object).
  Local Notation matchers := (p_matchers Class Object).
  Local Notation heap := (p_heap Class Object).

  (** The invariant of the object. *)
  Definition good (hms hems : string) (p : P) : Prop :=
    kept p /\ grids_named hms hems p /\
    (forall m n i, dget met_eqb (matchers p) (m, n) = Some i -> exists x, nth_error (heap p) i = Some x /\ fits hms hems m x) /\
    (forall a b i, dget met_eqb (matchers p) a = Some i -> dget met_eqb (matchers p) b = Some i -> a = b) /\
    (forall m m' n, dget met_eqb (matchers p) (m, n) <> None -> dget met_eqb (matchers p) (m', n) <> None -> m = m').

  Lemma fits_eq : forall hms hems m o o' t t', fits hms hems m (Matcher o t) -> (forall k, get o' k = get o k) -> fits hms hems m (Matcher o' t').
  Proof using Type.
    intros hms hems m o o' t t' [[z [A [B C]]] [D E]] G. split; [|split].
    - exists z. cbn [m_options] in *. rewrite !G. tauto.
    - cbn [m_options] in *. rewrite G. exact D.
    - intros k K. cbn [m_options] in *. rewrite G. apply E. exact K.
  Qed.

  (** Forgetting the matchers of other metallicities. *)
  Lemma forget_good : forall hms hems m name (p : P), kept p -> grids_named hms hems p ->
    (forall m n i, dget met_eqb (matchers p) (m, n) = Some i -> exists x, nth_error (heap p) i = Some x /\ fits hms hems m x) ->
    (forall a b i, dget met_eqb (matchers p) a = Some i -> dget met_eqb (matchers p) b = Some i -> a = b) ->
    (forall m m' n, n <> name -> dget met_eqb (matchers p) (m, n) <> None -> dget met_eqb (matchers p) (m', n) <> None -> m = m') ->
    exists p', forget _ _ (dkeys (matchers p)) m name p = (p', Ok tt) /\ good hms hems p' /\ same_rest p p' /\ heap p' = heap p /\
      (forall m' n', dget met_eqb (matchers p') (m', n') = if negb (val_eqb m' m) && String.eqb n' name then None else dget met_eqb (matchers p) (m', n')).
  Proof using Type.
    intros hms hems m name p K GN HF HI H1.
    destruct (forget_spec _ _ (dkeys (matchers p)) m name p K (proj1 K) (fun k X => X)) as [p' [E [K' [R' [H' [M' [GR FR]]]]]]].
    exists p'. split; [exact E|].
    assert (forall m' n', dget met_eqb (matchers p') (m', n') = if negb (val_eqb m' m) && String.eqb n' name then None else dget met_eqb (matchers p) (m', n')) as M.
    { intros m' n'. rewrite M'. destruct (inb_spec met_eqb_spec (m', n') (dkeys (matchers p))) as [I|N]; [reflexivity|].
      cbn [andb]. apply (dget_None_notin met_eqb_spec) in N. rewrite N. destruct (_ && _); reflexivity. }
    assert (forall a i, dget met_eqb (matchers p') a = Some i -> dget met_eqb (matchers p) a = Some i) as S.
    { intros [a1 a2] i G. rewrite M in G. destruct (_ && _) in G; [discriminate | exact G]. }
    split; [|split; [exact R' | split; [exact H' | exact M]]].
    split; [exact K'|]. split; [|split; [|split]].
    - destruct GN as [P1 [P2 GN]]. destruct R' as [_ [RA _]]. split; [|split].
      + unfold path_of in *. rewrite RA. exact P1.
      + unfold path_of in *. rewrite RA. exact P2.
      + intros m' f. destruct (FR m' f), (GN m' f). tauto.
    - intros m' n' i G. rewrite H'. apply (HF m' n'). apply S. exact G.
    - intros a b i A B. apply (HI a b i); apply S; assumption.
    - intros m1 m2 n A B. rewrite M in A, B. destruct (String.eqb_spec n name) as [EQ|NE]; [subst n|].
      + destruct (val_eqb_spec m1 m) as [E1|]; cbn [negb andb] in A; [|congruence].
        destruct (val_eqb_spec m2 m) as [E2|]; cbn [negb andb] in B; congruence.
      + rewrite andb_false_r in A, B. apply (H1 m1 m2 n NE); assumption.
  Qed.

  Variable open_grid : string -> option exn.
  Variable train : options -> option exn.

  (** The part of check_matcher before the clean-up. *)
  Definition prepare (p : P) (m : val) (name : string) (mo given : options) : P * result unit :=
    match dget met_eqb (matchers p) (m, name) with
    | None => create_matcher _ _ open_grid train p m name mo
    | Some i =>
        match nth_error (heap p) i with
        | None => (p, Raise KeyError)
        | Some x =>
            match update_options mo given (m_options x) false with
            | Raise e => (p, Raise e)
            | Ok (o, retrain) =>
                let p := set_matchers _ _ p (set_nth (heap p) i (Matcher o (m_trained x))) (matchers p) in
                if retrain then create_matcher _ _ open_grid train p m name o else (p, Ok tt)
            end
        end
    end.

  (** Two states differ at most in what belongs to a step. *)
  Definition others_kept (p p' : P) (name : string) : Prop :=
    forall m n, n <> name -> dget met_eqb (matchers p') (m, n) = dget met_eqb (matchers p) (m, n) /\
      forall i, dget met_eqb (matchers p) (m, n) = Some i -> nth_error (heap p') i = nth_error (heap p) i.
  (** Another value than the matcher's is asked for, of an option that matters for training. *)
  Definition asks_anew (given : options) (x : matcher) : Prop :=
    exists k g, In k training_triggers /\ get given k = Some g /\ get (m_options x) k <> Some g.
  Definition same_file_options (o : options) (p : P) (m : val) (name : string) (given : options) : Prop :=
    forall k, chosen k ->
      get o k = or_else (get given k)
        (match dget met_eqb (matchers p) (m, name) with
         | Some i => match nth_error (heap p) i with Some x => get (m_options x) k | None => None end
         | None => get matcher_defaults k
         end).

  Lemma fits_created : forall hms hems m z (o : options), zstring m = Ok z -> get o "metallicity" = Some m ->
    (forall k, In k (dkeys matcher_defaults) -> k <> "grid_Hrich" -> k <> "grid_strippedHe" -> get o k <> None) ->
    fits hms hems m (Matcher (put (put o "grid_Hrich" (VGrid (file_of hms z))) "grid_strippedHe" (VGrid (file_of hems z)))
                             (put (put o "grid_Hrich" (VGrid (file_of hms z))) "grid_strippedHe" (VGrid (file_of hems z)))).
  Proof using Type.
    intros hms hems m z o Z M A. split; [|split]; cbn [m_options].
    - exists z. split; [exact Z|]. rewrite !(dget_dset String.eqb_spec). split; reflexivity.
    - rewrite !(dget_dset String.eqb_spec). exact M.
    - intros k K. rewrite !(dget_dset String.eqb_spec). destruct (String.eqb_spec k "grid_strippedHe"); [discriminate|].
      destruct (String.eqb_spec k "grid_Hrich"); [discriminate|]. apply A; assumption.
  Qed.
  Lemma chosen_put : forall (o : options) a b k, chosen k -> get (put (put o "grid_Hrich" a) "grid_strippedHe" b) k = get o k.
  Proof using Type.
    intros o a b k [_ [A [B _]]]. rewrite !(dget_dset String.eqb_spec).
    destruct (String.eqb_spec k "grid_strippedHe"); [contradiction|]. destruct (String.eqb_spec k "grid_Hrich"); [contradiction | reflexivity].
  Qed.

  Lemma create_good : forall hms hems (p : P) m name o p' r, kept p -> grids_named hms hems p ->
    (forall m' n i, dget met_eqb (matchers p) (m', n) = Some i -> exists x, nth_error (heap p) i = Some x /\ fits hms hems m' x) ->
    (forall a b i, dget met_eqb (matchers p) a = Some i -> dget met_eqb (matchers p) b = Some i -> a = b) ->
    get o "metallicity" = Some m ->
    (forall k, In k (dkeys matcher_defaults) -> k <> "grid_Hrich" -> k <> "grid_strippedHe" -> get o k <> None) ->
    create_matcher _ _ open_grid train p m name o = (p', r) ->
    kept p' /\ grids_named hms hems p' /\ same_rest p p' /\
    (forall m' n i, dget met_eqb (matchers p') (m', n) = Some i -> exists x, nth_error (heap p') i = Some x /\ fits hms hems m' x) /\
    (forall a b i, dget met_eqb (matchers p') a = Some i -> dget met_eqb (matchers p') b = Some i -> a = b) /\
    (forall a, a <> (m, name) -> dget met_eqb (matchers p') a = dget met_eqb (matchers p) a) /\
    (forall j, j < length (heap p) -> nth_error (heap p') j = nth_error (heap p) j) /\
    (r <> Ok tt -> matchers p' = matchers p /\ heap p' = heap p) /\
    (r = Ok tt -> exists o', dget met_eqb (matchers p') (m, name) = Some (length (heap p)) /\
       nth_error (heap p') (length (heap p)) = Some (Matcher o' o') /\ forall k, chosen k -> get o' k = get o k).
  Proof using Type.
    intros hms hems p m name o p' r K GN HF HI OM OA H.
    destruct (create_spec _ _ open_grid train hms hems p m name o p' r K GN H) as [K' [GN' [SR [_ [_ C]]]]].
    split; [exact K'|]. split; [exact GN'|]. split; [exact SR|].
    destruct C as [[[e ->] [H1 H2]]|[-> [z [Z C]]]].
    - rewrite H1, H2. split; [exact HF|]. split; [exact HI|]. split; [reflexivity|]. split; [reflexivity|]. split; [split; reflexivity|]. discriminate.
    - cbv zeta in C. destruct C as [T [C1 [C2 _]]]. set (o' := put (put o _ _) _ _) in *.
      assert (forall a, a <> (m, name) -> dget met_eqb (matchers p') a = dget met_eqb (matchers p) a) as OT.
      { intros a N. rewrite C2. apply (dget_dset_other met_eqb_spec). exact N. }
      assert (dget met_eqb (matchers p') (m, name) = Some (length (heap p))) as ME by (rewrite C2; apply (dget_dset_same met_eqb_spec)).
      assert (forall j, j < length (heap p) -> nth_error (heap p') j = nth_error (heap p) j) as OLD by (intros j J; rewrite C1; apply nth_error_app1; exact J).
      assert (nth_error (heap p') (length (heap p)) = Some (Matcher o' o')) as NEW by (rewrite C1, nth_error_app2, Nat.sub_diag by lia; reflexivity).
      assert (forall a i, dget met_eqb (matchers p) a = Some i -> i < length (heap p)) as LT.
      { intros [a1 a2] i G. destruct (HF a1 a2 i G) as [x [NX _]]. apply nth_error_Some. congruence. }
      split; [|split; [|split; [exact OT|split; [exact OLD|split; [congruence|]]]]].
      + intros m' n i G. destruct (met_eqb_spec (m', n) (m, name)) as [EQ|NE].
        * rewrite EQ in G. assert (i = length (heap p)) as -> by congruence. assert (m' = m) as -> by congruence.
          exists (Matcher o' o'). split; [exact NEW|]. apply fits_created; assumption.
        * rewrite OT in G by exact NE. rewrite OLD by (eapply LT; exact G). apply (HF m' n). exact G.
      + intros a b i A B. destruct (met_eqb_spec a (m, name)) as [EA|NA], (met_eqb_spec b (m, name)) as [EB|NB].
        * congruence.
        * exfalso. rewrite EA in A. rewrite OT in B by exact NB. apply LT in B. assert (i = length (heap p)) by congruence. lia.
        * exfalso. rewrite EB in B. rewrite OT in A by exact NA. apply LT in A. assert (i = length (heap p)) by congruence. lia.
        * rewrite OT in A, B by assumption. apply (HI a b i); assumption.
      + intros _. exists o'. split; [exact ME|]. split; [exact NEW|]. intros k CH. apply chosen_put. exact CH.
  Qed.

  Lemma prepare_spec : forall hms hems (p : P) m name mo given p' r, good hms hems p ->
    dkeys mo = dkeys matcher_defaults -> NoDup (dkeys mo) ->
    get mo "metallicity" = Some m -> get given "grid_Hrich" = None -> get given "grid_strippedHe" = None ->
    (forall g, get given "metallicity" = Some g -> g = m \/ g = VNone) ->
    (forall k, chosen k -> get mo k = or_else (get given k) (get matcher_defaults k)) ->
    prepare p m name mo given = (p', r) ->
    kept p' /\ grids_named hms hems p' /\ same_rest p p' /\ others_kept p p' name /\
    (forall m' n i, dget met_eqb (matchers p') (m', n) = Some i -> exists x, nth_error (heap p') i = Some x /\ fits hms hems m' x) /\
    (forall a b i, dget met_eqb (matchers p') a = Some i -> dget met_eqb (matchers p') b = Some i -> a = b) /\
    (forall m', m' <> m -> dget met_eqb (matchers p') (m', name) = dget met_eqb (matchers p) (m', name)) /\
    (r <> Ok tt -> matchers p' = matchers p /\ (dget met_eqb (matchers p) (m, name) = None -> heap p' = heap p)) /\
    (r = Ok tt -> exists i x, dget met_eqb (matchers p') (m, name) = Some i /\ nth_error (heap p') i = Some x /\
       same_file_options (m_options x) p m name given /\
       (dget met_eqb (matchers p) (m, name) = Some i <->
          exists j y, dget met_eqb (matchers p) (m, name) = Some j /\ nth_error (heap p) j = Some y /\ ~ asks_anew given y) /\
       ((forall j y, dget met_eqb (matchers p) (m, name) = Some j -> nth_error (heap p) j = Some y -> trained y) -> trained x)).
  Proof using Type.
    intros hms hems p m name mo given p' r GOOD KM ND MM G1 G2 GM MO H. destruct GOOD as [K [GN [HF [HI H1]]]].
    assert (forall k, chosen k -> get matcher_defaults k <> None) as DF by (intros k [I _]; apply (dget_in _ String.eqb_spec); exact I).
    assert (forall k, In k (dkeys matcher_defaults) -> get mo k <> None) as MN.
    { intros k I. rewrite <- KM in I. apply (dget_in _ String.eqb_spec). exact I. }
    assert (forall a i, dget met_eqb (matchers p) a = Some i -> i < length (heap p)) as LT.
    { intros [a1 a2] i G. destruct (HF a1 a2 i G) as [x [NX _]]. apply nth_error_Some. congruence. }
    unfold prepare in H. destruct (dget met_eqb (matchers p) (m, name)) as [i|] eqn:G.
    - destruct (HF m name i G) as [x [NX FX]]. rewrite NX in H. pose proof FX as [[z [Z [X1 X2]]] [XM XA]].
      destruct (update_spec mo given (m_options x) false ND) as [o [rt [E [GO R]]]]; [rewrite KM; exact XA|]. rewrite E in H. cbv zeta in H.
      assert (forall k, chosen k -> get o k = or_else (get given k) (get (m_options x) k)) as GOC.
      { intros k CH. rewrite GO. pose proof (MN k (proj1 CH)) as N1. pose proof (XA k (proj1 CH)) as N2. pose proof (MO k CH) as M1.
        destruct (get mo k) as [v|]; [|congruence]. destruct (get given k) as [g|]; [|reflexivity]. destruct (get (m_options x) k) as [c|]; [|congruence].
        cbn [or_else] in *. destruct (val_eqb_spec c g); congruence. }
      assert (get o "grid_Hrich" = get (m_options x) "grid_Hrich") as GO1 by (rewrite GO, G1; destruct (get mo "grid_Hrich"); reflexivity).
      assert (get o "grid_strippedHe" = get (m_options x) "grid_strippedHe") as GO2 by (rewrite GO, G2; destruct (get mo "grid_strippedHe"); reflexivity).
      assert (get o "metallicity" = Some m) as GOM.
      { rewrite GO, MM, XM. destruct (get given "metallicity") as [g|]; [destruct (val_eqb m g)|]; reflexivity. }
      assert (forall k, In k (dkeys matcher_defaults) -> get o k <> None) as GOA.
      { intros k I. rewrite GO. specialize (MN k I). specialize (XA k I). destruct (get mo k) as [v|]; [|congruence]. destruct (get given k) as [g|]; [|exact XA].
        destruct (get (m_options x) k) as [c|]; [|congruence]. destruct (val_eqb c g); discriminate. }
      assert (rt = true <-> asks_anew given x) as AN.
      { rewrite R. split.
        - intros [A|[k [g [c [T [_ [B [C D]]]]]]]]; [discriminate|]. exists k, g. split; [exact T|]. split; [exact B|]. congruence.
        - intros [k [g [T [B C]]]]. right. assert (In k (dkeys matcher_defaults)) as I.
          { clear - T. vm_compute in T |- *. tauto. }
          specialize (XA k I). destruct (get (m_options x) k) as [c|] eqn:CC; [|congruence]. exists k, g, c. rewrite KM. split; [exact T|].
          split; [exact I|]. split; [exact B|]. split; congruence. }
      set (x' := Matcher o (m_trained x)) in *.
      assert (fits hms hems m x') as FX'.
      { split; [|split].
        - exists z. unfold x'. cbn [m_options]. rewrite GO1, GO2. tauto.
        - exact GOM.
        - exact GOA. }
      pose proof (LT _ _ G) as L.
      set (q := set_matchers Class Object p (set_nth (heap p) i x') (matchers p)) in *.
      assert (forall j, nth_error (heap q) j = if Nat.eqb j i then Some x' else nth_error (heap p) j) as NQ by (intro j; apply nth_set_nth; exact L).
      assert (length (heap q) = length (heap p)) as LQ by (apply set_nth_length; exact L).
      assert (forall m' n j, dget met_eqb (matchers q) (m', n) = Some j -> exists x, nth_error (heap q) j = Some x /\ fits hms hems m' x) as HFq.
      { intros m' n j A. rewrite NQ. destruct (Nat.eqb_spec j i) as [-> |NE].
        - exists x'. split; [reflexivity|]. assert (m' = m) as -> by (pose proof (HI _ _ _ A G); congruence). exact FX'.
        - apply (HF m' n). exact A. }
      assert (others_kept p q name) as OK.
      { intros m' n N. split; [reflexivity|]. intros j A. rewrite NQ. destruct (Nat.eqb_spec j i) as [-> |]; [|reflexivity].
        pose proof (HI _ _ _ A G). congruence. }
      destruct rt.
      + destruct (create_good hms hems q m name o p' r K GN HFq HI GOM (fun k I _ _ => GOA k I) H) as [K' [GN' [SR [HF' [HI' [OT [OLD [BAD OKAY]]]]]]]].
        split; [exact K'|]. split; [exact GN'|]. split; [exact SR|]. split; [|split; [exact HF'|split; [exact HI'|split; [|split]]]].
        * intros m' n N. destruct (OK m' n N) as [O1 O2]. split; [rewrite OT by congruence; exact O1|]. intros j A. rewrite OLD by (rewrite LQ; eapply LT; exact A). apply O2. exact A.
        * intros m' N. apply OT. congruence.
        * intro N. split; [apply BAD; exact N | discriminate].
        * intro RO. destruct (OKAY RO) as [o' [M1 [M2 M3]]]. exists (length (heap q)), (Matcher o' o'). split; [exact M1|]. split; [exact M2|]. split; [|split].
          -- intros k CH. cbn [m_options]. rewrite M3 by exact CH. rewrite G, NX. apply GOC. exact CH.
          -- split.
             ++ intro A. exfalso. assert (i = length (heap q)) by congruence. lia.
             ++ intros [j [y [A [B C]]]]. exfalso. assert (j = i) as -> by congruence. assert (y = x) as -> by congruence. apply C. apply AN. reflexivity.
          -- intros _ k _. reflexivity.
      + assert (p' = q) as -> by congruence. assert (r = Ok tt) as -> by congruence.
        split; [exact K|]. split; [exact GN|]. split; [repeat split|]. split; [exact OK|]. split; [exact HFq|]. split; [exact HI|]. split; [reflexivity|]. split; [congruence|].
        intros _. exists i, x'. split; [exact G|]. split; [rewrite NQ, Nat.eqb_refl; reflexivity|]. split; [|split].
        * intros k CH. rewrite G, NX. apply GOC. exact CH.
        * split; [|intros _; reflexivity]. intros _. exists i, x. split; [reflexivity|]. split; [exact NX|]. intro A. apply AN in A. discriminate.
        * intros TR k T. unfold x'. cbn [m_options m_trained]. rewrite (TR i x eq_refl NX k T), GO.
          destruct (get mo k) as [v|]; [|reflexivity]. destruct (get given k) as [g|] eqn:GG; [|reflexivity]. destruct (get (m_options x) k) as [c|] eqn:CC; [|reflexivity].
          destruct (val_eqb_spec c g) as [-> |NE]; [reflexivity|]. exfalso.
          assert (false = true) by (apply AN; exists k, g; split; [exact T|]; split; congruence). discriminate.
    - destruct (create_good hms hems p m name mo p' r K GN HF HI MM (fun k I _ _ => MN k I) H) as [K' [GN' [SR [HF' [HI' [OT [OLD [BAD OKAY]]]]]]]].
      split; [exact K'|]. split; [exact GN'|]. split; [exact SR|]. split; [|split; [exact HF'|split; [exact HI'|split; [|split]]]].
      + intros m' n N. split; [apply OT; congruence|]. intros j A. apply OLD. eapply LT. exact A.
      + intros m' N. apply OT. congruence.
      + intro N. split; [apply BAD; exact N | intros _; apply BAD; exact N].
      + intro RO. destruct (OKAY RO) as [o' [M1 [M2 M3]]]. exists (length (heap p)), (Matcher o' o'). split; [exact M1|]. split; [exact M2|]. split; [|split].
        * intros k CH. cbn [m_options]. rewrite M3 by exact CH. rewrite G. apply MO. exact CH.
        * split; [congruence|]. intros [j [y [A _]]]. congruence.
        * intros _ k _. reflexivity.
  Qed.

  Lemma check_matcher_spec : forall hms hems (p : P) m name d given p' d' r, good hms hems p -> NoDup (dkeys d) ->
    get d "metallicity" = Some m -> get given "grid_Hrich" = None -> get given "grid_strippedHe" = None ->
    (forall g, get given "metallicity" = Some g -> g = m \/ g = VNone) ->
    (forall k, chosen k -> get d k = get given k) ->
    check_matcher _ _ open_grid train p m name d given = (p', d', r) ->
    d' = fst (separate d) /\ good hms hems p' /\ same_rest p p' /\ others_kept p p' name /\
    (forall e, r = Raise e -> matchers p' = matchers p /\ (dget met_eqb (matchers p) (m, name) = None -> heap p' = heap p)) /\
    (forall i, r = Ok i -> dget met_eqb (matchers p') (m, name) = Some i /\
       (forall m', m' <> m -> dget met_eqb (matchers p') (m', name) = None) /\
       exists x, nth_error (heap p') i = Some x /\ same_file_options (m_options x) p m name given /\
         (dget met_eqb (matchers p) (m, name) = Some i <->
            exists j y, dget met_eqb (matchers p) (m, name) = Some j /\ nth_error (heap p) j = Some y /\ ~ asks_anew given y) /\
         ((forall j y, dget met_eqb (matchers p) (m, name) = Some j -> nth_error (heap p) j = Some y -> trained y) -> trained x)).
  Proof using Type.
    intros hms hems p m name d given p' d' r GOOD ND DM G1 G2 GM GD H.
    destruct (separate_spec d ND) as [_ [_ [KM MO]]].
    unfold check_matcher in H. destruct (separate d) as [ds mo]. cbn [fst snd] in *.
    change (match dget met_eqb (matchers p) (m, name) with
            | None => _ | Some i => _ end) with (prepare p m name mo given) in H.
    destruct (prepare p m name mo given) as [q r1] eqn:PR.
    assert (NoDup (dkeys mo)) as NDM.
    { rewrite KM. clear. vm_compute. repeat constructor; cbn [In]; intuition discriminate. }
    destruct (prepare_spec hms hems p m name mo given q r1 GOOD KM NDM) as [K' [GN' [SR' [OK' [HF' [HI' [OM' [BAD GOODR]]]]]]]]; try assumption.
    { rewrite MO by (clear; vm_compute; tauto). rewrite DM. reflexivity. }
    { intros k CH. rewrite MO by apply CH. rewrite GD by exact CH. destruct (get given k); reflexivity. }
    destruct GOOD as [K [GN [HF [HI H1]]]].
    assert (forall m m' n, n <> name -> dget met_eqb (matchers q) (m, n) <> None -> dget met_eqb (matchers q) (m', n) <> None -> m = m') as H1'.
    { intros a b n N A B. rewrite (proj1 (OK' a n N)) in A. rewrite (proj1 (OK' b n N)) in B. apply (H1 a b n); assumption. }
    destruct r1 as [[]|e].
    - destruct (forget_good hms hems m name q K' GN' HF' HI' H1') as [q' [E [GQ [SQ [HQ MQ]]]]]. rewrite E in H.
      destruct (GOODR eq_refl) as [i [x [A1 [A2 [A3 [A4 A5]]]]]].
      assert (dget met_eqb (matchers q') (m, name) = Some i) as MI.
      { rewrite MQ. destruct (val_eqb_spec m m); [|congruence]. exact A1. }
      rewrite MI in H. assert (q' = p' /\ ds = d' /\ r = Ok i) as [<- [<- ->]] by (repeat split; congruence).
      split; [reflexivity|]. split; [exact GQ|]. split.
      { destruct SR' as [S1 [S2 [S3 [S4 S5]]]], SQ as [T1 [T2 [T3 [T4 T5]]]]. repeat split; congruence. }
      split; [|split; [discriminate|]].
      + intros m' n N. destruct (OK' m' n N) as [O1 O2]. rewrite MQ, HQ. destruct (String.eqb_spec n name); [contradiction|].
        rewrite andb_false_r. split; [exact O1 | exact O2].
      + intros j J. assert (j = i) as -> by congruence. split; [exact MI|]. split.
        * intros m' N. rewrite MQ. destruct (val_eqb_spec m' m); [contradiction|]. rewrite String.eqb_refl. reflexivity.
        * exists x. rewrite HQ. split; [exact A2|]. split; [exact A3|]. split; [exact A4 | exact A5].
    - assert (q = p' /\ ds = d' /\ r = Raise e) as [<- [<- ->]] by (repeat split; congruence).
      assert (matchers q = matchers p /\ (dget met_eqb (matchers p) (m, name) = None -> heap q = heap p)) as MS by (apply BAD; discriminate).
      split; [reflexivity|]. split; [|split; [exact SR'|split; [exact OK'|split; [intros; exact MS | discriminate]]]].
      split; [exact K'|]. split; [exact GN'|]. split; [exact HF'|]. split; [exact HI'|]. rewrite (proj1 MS). exact H1.
  Qed.

  (** ** Calls *)
  Variable defaults : Class -> option (list string).
  Variable build : Class -> options -> result Object.
  Local Notation load := (load_a_step Class Object defaults build open_grid train).

  (** The metallicity a step uses: its own, else the one passed, else solar. *)
  Definition metallicity_used (d : options) (m : val) : val :=
    match or_else (get d "metallicity") (Some m) with Some VNone | None => VNum 10000 | Some v => v end.
  Definition path_names : list string := ["single_HMS_path"; "single_HeMS_path"].
  (** Classes that take a matcher take a metallicity. *)
  Definition sound_class (c : Class) : Prop :=
    forall names, defaults c = Some names -> In "track_matcher" names -> In "metallicity" names.

  Lemma good_attach : forall hms hems p name o, ~ In name path_names -> good hms hems p -> good hms hems (attach _ _ p name o).
  Proof using Type.
    intros hms hems p name o N [K [[P1 [P2 GN]] R]]. split; [exact K|]. split; [|exact R].
    assert (forall n, In n path_names -> path_of _ _ (attach _ _ p name o) n = path_of _ _ p n) as E.
    { intros n I. unfold path_of, attach. cbn [p_attrs]. rewrite (dget_dset_other String.eqb_spec); [reflexivity|]. intros ->. exact (N I). }
    split; [|split; [|exact GN]].
    - rewrite E; [exact P1 | left; reflexivity].
    - rewrite E; [exact P2 | right; left; reflexivity].
  Qed.

  (** The dictionary handed to the class. *)
  Definition final_options (p : P) (name : string) (names : list string) (d : options) (m rng : val) (k : string) (i : nat) : option val :=
    if inb String.eqb "RNG" names && String.eqb k "RNG" then Some rng
    else if inb String.eqb "track_matcher" names && String.eqb k "track_matcher" then Some (VMatcher i)
    else if inb String.eqb "track_matcher" names && inb String.eqb k (dkeys matcher_defaults) && negb (String.eqb k "metallicity") then None
    else match get grid_steps name with
         | Some n => if String.eqb k "grid_path" then match path_of _ _ p n with Ok s => Some (VText s) | Raise _ => None end
                     else if inb String.eqb "metallicity" names && String.eqb k "metallicity" then Some (metallicity_used d m) else get d k
         | None => if inb String.eqb "metallicity" names && String.eqb k "metallicity" then Some (metallicity_used d m) else get d k
         end.

  Lemma check_step_spec : forall hms hems (p : P) m rng name c d p' d' r, good hms hems p -> plain_options d -> sound_class c ->
    check_step _ _ defaults open_grid train p m rng name c d = (p', d', r) ->
    good hms hems p' /\ plain_options d' /\ same_rest p p' /\ others_kept p p' name /\
    (forall e, r = Raise e -> matchers p' = matchers p /\ (dget met_eqb (matchers p) (metallicity_used d m, name) = None -> heap p' = heap p)) /\
    (r = Ok tt -> exists names i, defaults c = Some names /\
       (forall k, get d' k = final_options p name names d m rng k i) /\
       (In "metallicity" names -> exists z, metallicity_used d m = VNum z) /\
       (~ In "track_matcher" names -> matchers p' = matchers p /\ heap p' = heap p) /\
       (In "track_matcher" names ->
          dget met_eqb (matchers p') (metallicity_used d m, name) = Some i /\
          (forall m', m' <> metallicity_used d m -> dget met_eqb (matchers p') (m', name) = None) /\
          exists x, nth_error (heap p') i = Some x /\ same_file_options (m_options x) p (metallicity_used d m) name d /\
            (dget met_eqb (matchers p) (metallicity_used d m, name) = Some i <->
               exists j y, dget met_eqb (matchers p) (metallicity_used d m, name) = Some j /\ nth_error (heap p) j = Some y /\ ~ asks_anew d y) /\
            ((forall j y, dget met_eqb (matchers p) (metallicity_used d m, name) = Some j -> nth_error (heap p) j = Some y -> trained y) -> trained x))).
  Proof using Type.
    intros hms hems p m rng name c d p' d' r GOOD PO SC H. unfold check_step in H.
    assert (same_rest p p) as SR0 by (repeat split).
    assert (others_kept p p name) as OK0 by (intros ? ? ?; split; reflexivity).
    destruct (defaults c) as [names|] eqn:DC.
    2: { assert (p' = p /\ d' = d /\ r = Raise AttributeError) as [-> [-> ->]] by (repeat split; congruence).
         split; [exact GOOD|]. split; [exact PO|]. split; [exact SR0|]. split; [exact OK0|]. split; [intros; split; reflexivity | discriminate]. }
    pose (d1 := if inb String.eqb "metallicity" names then put d "metallicity" (metallicity_used d m) else d).
    assert ((exists e, (p, d, Raise e) = (p', d', r)) \/
            (In "metallicity" names -> exists z, metallicity_used d m = VNum z) /\
            (match (match get grid_steps name with
                   | None => Ok d1
                   | Some n => rbind (path_of _ _ p n) (fun s => Ok (put d1 "grid_path" (VText s)))
                   end) with
            | Raise e => (p, d1, Raise e)
            | Ok d2 =>
                let '(p, d, r) := if inb String.eqb "track_matcher" names
                                  then let '(p, d, r) := check_matcher _ _ open_grid train p (metallicity_used d m) name d2 d in
                                       match r with Ok i => (p, put d "track_matcher" (VMatcher i), Ok tt) | Raise e => (p, d, Raise e) end
                                  else (p, d2, Ok tt) in
                match r with
                | Raise e => (p, d, Raise e)
                | Ok _ => (p, if inb String.eqb "RNG" names then put d "RNG" rng else d, Ok tt)
                end
            end) = (p', d', r)) as HH.
    { unfold d1. destruct (inb_spec String.eqb_spec "metallicity" names) as [IM|NM].
      - unfold metallicity_used. destruct (get d "metallicity") as [v|]; cbn [or_else] in *.
        + destruct v; cbv beta iota zeta in H; try (left; eexists; exact H); right; (split; [intros _; eexists; reflexivity | exact H]).
        + destruct m; cbv beta iota zeta in H; try (left; eexists; exact H); right; (split; [intros _; eexists; reflexivity | exact H]).
      - right. split; [intro I; contradiction|]. cbv beta iota zeta in H.
        destruct (inb_spec String.eqb_spec "track_matcher" names) as [IT|NT]; [exfalso; apply NM; apply (SC names DC IT) | exact H]. }
    clear H. destruct HH as [[e H]|[MZ H]].
    { assert (p' = p /\ d' = d /\ r = Raise e) as [-> [-> ->]] by (repeat split; congruence).
      split; [exact GOOD|]. split; [exact PO|]. split; [exact SR0|]. split; [exact OK0|]. split; [intros; split; reflexivity | discriminate]. }
    assert (plain_options d1) as PO1 by (unfold d1; destruct (inb String.eqb "metallicity" names); [apply plain_put; [exact PO|discriminate|discriminate] | exact PO]).
    destruct (match get grid_steps name with None => Ok d1 | Some n => rbind (path_of _ _ p n) (fun s => Ok (put d1 "grid_path" (VText s))) end) as [d2|e] eqn:D2.
    2: { assert (p' = p /\ d' = d1 /\ r = Raise e) as [-> [-> ->]] by (repeat split; congruence).
         split; [exact GOOD|]. split; [exact PO1|]. split; [exact SR0|]. split; [exact OK0|]. split; [intros; split; reflexivity | discriminate]. }
    assert (plain_options d2) as PO2.
    { destruct (get grid_steps name) as [n|]; [|congruence]. destruct (path_of _ _ p n); cbn [rbind] in D2; [|discriminate].
      assert (d2 = put d1 "grid_path" (VText a)) as -> by congruence. apply plain_put; [exact PO1|discriminate|discriminate]. }
    assert (forall k, get d2 k = match get grid_steps name with
         | Some n => if String.eqb k "grid_path" then match path_of _ _ p n with Ok s => Some (VText s) | Raise _ => None end
                     else if inb String.eqb "metallicity" names && String.eqb k "metallicity" then Some (metallicity_used d m) else get d k
         | None => if inb String.eqb "metallicity" names && String.eqb k "metallicity" then Some (metallicity_used d m) else get d k
         end) as GD2.
    { intro k. assert (get d1 k = if inb String.eqb "metallicity" names && String.eqb k "metallicity" then Some (metallicity_used d m) else get d k) as G1.
      { unfold d1. destruct (inb String.eqb "metallicity" names); [|reflexivity]. rewrite (dget_dset String.eqb_spec). reflexivity. }
      destruct (get grid_steps name) as [n|].
      - destruct (path_of _ _ p n) as [s|]; cbn [rbind] in D2; [|discriminate]. assert (d2 = put d1 "grid_path" (VText s)) as -> by congruence.
        rewrite (dget_dset String.eqb_spec), G1. reflexivity.
      - assert (d2 = d1) as -> by congruence. exact G1. }
    destruct (inb_spec String.eqb_spec "track_matcher" names) as [IT|NT].
    - assert (In "metallicity" names) as IM by (apply (SC names DC IT)).
      destruct (check_matcher _ _ open_grid train p (metallicity_used d m) name d2 d) as [[q ds] rr] eqn:CM.
      assert (inb String.eqb "metallicity" names = true) as IMB by (destruct (inb_spec String.eqb_spec "metallicity" names); [reflexivity | contradiction]).
      destruct (check_matcher_spec hms hems p (metallicity_used d m) name d2 d q ds rr) as [-> [GQ [SQ [OQ [BAD OKAY]]]]]; try assumption.
      { apply PO2. }
      { rewrite GD2, IMB. cbn [andb String.eqb Ascii.eqb Bool.eqb]. destruct (get grid_steps name); reflexivity. }
      { apply PO. } { apply PO. }
      { intros g G. unfold metallicity_used. rewrite G. cbn [or_else]. destruct g; auto. }
      { intros k CH. rewrite GD2. assert (String.eqb k "grid_path" = false) as N1.
        { destruct (String.eqb_spec k "grid_path") as [-> |]; [|reflexivity]. exfalso. destruct CH as [CH _]. clear - CH. vm_compute in CH. intuition discriminate. }
        assert (String.eqb k "metallicity" = false) as N2 by (destruct (String.eqb_spec k "metallicity"); [exfalso; apply CH; assumption | reflexivity]).
        rewrite N1, N2, andb_false_r. destruct (get grid_steps name); reflexivity. }
      destruct (separate_spec d2 (proj1 PO2)) as [SS [SN _]].
      assert (plain_options (fst (separate d2))) as PS.
      { split; [exact SN|]. rewrite !SS. split; reflexivity. }
      destruct rr as [i|e].
      + assert (p' = q /\ r = Ok tt /\ d' = if inb String.eqb "RNG" names then put (put (fst (separate d2)) "track_matcher" (VMatcher i)) "RNG" rng else put (fst (separate d2)) "track_matcher" (VMatcher i))
          as [-> [-> ->]] by (destruct (inb String.eqb "RNG" names); repeat split; congruence).
        split; [exact GQ|]. split; [|split; [exact SQ|split; [exact OQ|split; [discriminate|]]]].
        * destruct (inb String.eqb "RNG" names); repeat (apply plain_put; [|discriminate|discriminate]); exact PS.
        * intros _. exists names, i. split; [reflexivity|]. split; [|split; [exact MZ|split; [intro; contradiction|]]].
          -- intro k. unfold final_options. rewrite <- GD2.
             assert (inb String.eqb "track_matcher" names = true) as ITB by (destruct (inb_spec String.eqb_spec "track_matcher" names); [reflexivity | contradiction]).
             rewrite ITB. cbn [andb].
             destruct (inb String.eqb "RNG" names); cbn [andb]; rewrite !(dget_dset String.eqb_spec), SS; reflexivity.
          -- intros _. destruct (OKAY i eq_refl) as [A1 [A2 A3]]. split; [exact A1|]. split; [exact A2|]. exact A3.
      + assert (p' = q /\ r = Raise e /\ d' = fst (separate d2)) as [-> [-> ->]] by (repeat split; congruence).
        split; [exact GQ|]. split; [exact PS|]. split; [exact SQ|]. split; [exact OQ|]. split; [|discriminate]. intros e' _. apply (BAD e eq_refl).
    - assert (p' = p /\ r = Ok tt /\ d' = if inb String.eqb "RNG" names then put d2 "RNG" rng else d2) as [-> [-> ->]] by (destruct (inb String.eqb "RNG" names); repeat split; congruence).
      split; [exact GOOD|]. split; [|split; [exact SR0|split; [exact OK0|split; [discriminate|]]]].
      + destruct (inb String.eqb "RNG" names); [apply plain_put; [|discriminate|discriminate]|]; exact PO2.
      + intros _. exists names, 0. split; [reflexivity|]. split; [|split; [exact MZ|split; [split; reflexivity | intro; contradiction]]].
        intro k. unfold final_options. rewrite <- GD2.
        assert (inb String.eqb "track_matcher" names = false) as ITB by (destruct (inb_spec String.eqb_spec "track_matcher" names); [contradiction | reflexivity]).
        rewrite ITB. cbn [andb].
        destruct (inb String.eqb "RNG" names); cbn [andb]; [rewrite (dget_dset String.eqb_spec)|]; reflexivity.
  Qed.
End Load.
