(** Lemmas on SimulationProperties. *)
From Coq Require Import String List Bool ZArith Lia.
From Verif Require Import PyBase PyStr PyList SimPropModel.
Import ListNotations.
Open Scope string_scope.
Open Scope list_scope.
Open Scope nat_scope.

Lemma val_eqb_spec : forall a b, reflect (a = b) (val_eqb a b).
Proof.
  intros [|x|x|x|x|x] [|y|y|y|y|y]; cbn [val_eqb]; try (constructor; congruence).
  - destruct (Z.eqb_spec x y); constructor; congruence.
  - destruct (String.eqb_spec x y); constructor; congruence.
  - destruct (Nat.eqb_spec x y); constructor; congruence.
  - destruct (String.eqb_spec x y); constructor; congruence.
  - destruct (Nat.eqb_spec x y); constructor; congruence.
Qed.
Lemma met_eqb_spec : forall a b, reflect (a = b) (met_eqb a b).
Proof.
  intros [a n] [b k]. unfold met_eqb. cbn [fst snd]. destruct (val_eqb_spec a b), (String.eqb_spec n k); constructor; congruence.
Qed.

(** ** Dictionaries *)
Lemma get_pop : forall A (d : list (string * A)) k k', NoDup (dkeys d) -> get (pop d k) k' = if String.eqb k' k then None else get d k'.
Proof.
  intros A d k k' ND. induction d as [|[a v] d IH]; [destruct (String.eqb k' k); reflexivity|].
  inversion ND as [|? ? N ND']; subst. cbn [pop]. destruct (String.eqb_spec k a) as [-> |NE].
  - cbn [dget]. destruct (String.eqb_spec k' a) as [-> |]; [|reflexivity]. apply (dget_None_notin String.eqb_spec). exact N.
  - cbn [dget]. rewrite (IH ND'). destruct (String.eqb_spec k' a) as [-> |]; [|reflexivity].
    destruct (String.eqb_spec a k); [congruence | reflexivity].
Qed.
Lemma pop_in : forall A (d : list (string * A)) k x, In x (dkeys (pop d k)) -> In x (dkeys d).
Proof.
  intros A d k x. induction d as [|[a v] d IH]; [tauto|]. cbn [pop]. destruct (String.eqb k a); [right; assumption|].
  intros [H|H]; [left; exact H | right; apply IH; exact H].
Qed.
Lemma pop_nodup : forall A (d : list (string * A)) k, NoDup (dkeys d) -> NoDup (dkeys (pop d k)).
Proof.
  intros A d k ND. induction d as [|[a v] d IH]; [constructor|]. inversion ND as [|? ? N ND']; subst. cbn [pop].
  destruct (String.eqb k a); [exact ND'|]. change (NoDup (a :: dkeys (pop d k))). constructor; [|apply IH; exact ND'].
  intro H. apply N. exact (pop_in _ _ _ _ H).
Qed.
Lemma get_pop_all : forall A ks (d : list (string * A)) k', NoDup (dkeys d) ->
  get (pop_all d ks) k' = (if inb String.eqb k' ks then None else get d k') /\ NoDup (dkeys (pop_all d ks)).
Proof.
  unfold pop_all. induction ks as [|k ks IH]; intros d k' ND; [split; [reflexivity | exact ND]|]. cbn [fold_left inb].
  destruct (IH (pop d k) k' (pop_nodup _ _ _ ND)) as [G N]. split; [|exact N]. rewrite G, get_pop by exact ND.
  destruct (String.eqb k' k); [|reflexivity]. destruct (inb String.eqb k' ks); reflexivity.
Qed.
Lemma last_write_notin : forall K A (eqb : K -> K -> bool) (S : forall x y, reflect (x = y) (eqb x y)) (l : list (K * A)) k,
  ~ In k (dkeys l) -> last_write eqb l k = None.
Proof.
  intros K A eqb S. induction l as [|[a v] l IH]; intros k N; [reflexivity|]. rewrite last_write_cons, IH by (intro H; apply N; right; exact H).
  destruct (S k a); [|reflexivity]. exfalso. apply N. left. symmetry. assumption.
Qed.
Lemma last_write_get : forall K A (eqb : K -> K -> bool) (S : forall x y, reflect (x = y) (eqb x y)) (l : list (K * A)) k,
  NoDup (dkeys l) -> last_write eqb l k = dget eqb l k.
Proof.
  intros K A eqb S. induction l as [|[a v] l IH]; intros k ND; [reflexivity|]. inversion ND as [|? ? N ND']; subst.
  rewrite last_write_cons. cbn [dget]. destruct (S k a) as [-> |NE].
  - rewrite (last_write_notin _ _ eqb S) by exact N. reflexivity.
  - rewrite (IH k ND'). destruct (dget eqb l k); reflexivity.
Qed.
Lemma dget_filter : forall A (f : string -> bool) (d : list (string * A)) k,
  get (filter (fun e => f (fst e)) d) k = if f k then get d k else None.
Proof.
  intros A f d k. induction d as [|[a v] d IH]; [destruct (f k); reflexivity|]. cbn [filter fst dget].
  destruct (f a) eqn:F; cbn [dget]; rewrite IH; destruct (String.eqb_spec k a) as [-> |]; try reflexivity.
  - rewrite F. reflexivity.
  - rewrite F. reflexivity.
Qed.
Lemma filter_keys : forall A (f : string -> bool) (d : list (string * A)), dkeys (filter (fun e => f (fst e)) d) = filter f (dkeys d).
Proof.
  intros A f d. induction d as [|[a v] d IH]; [reflexivity|]. cbn [filter fst]. change (dkeys ((a, v) :: d)) with (a :: dkeys d). cbn [filter].
  destruct (f a); [|exact IH]. change (a :: dkeys (filter (fun e => f (fst e)) d) = a :: filter f (dkeys d)). rewrite IH. reflexivity.
Qed.

Section Del.
  Context {K A : Type} (eqb : K -> K -> bool) (S : forall x y, reflect (x = y) (eqb x y)).
  Lemma del_ok : forall (d : list (K * A)) k, dget eqb d k <> None -> NoDup (dkeys d) ->
    exists d', del eqb d k = Ok d' /\ NoDup (dkeys d') /\ (forall x, In x (dkeys d') -> In x (dkeys d)) /\
      forall k', dget eqb d' k' = if eqb k' k then None else dget eqb d k'.
  Proof using S.
    induction d as [|[a v] d IH]; intros k G ND; [cbn in G; congruence|]. inversion ND as [|? ? N ND']; subst. cbn [del].
    destruct (S k a) as [-> |NE].
    - exists d. split; [reflexivity|]. split; [exact ND'|]. split; [intros x X; right; exact X|].
      intro k'. cbn [dget]. destruct (S k' a) as [-> |]; [|reflexivity]. apply (dget_None_notin S). exact N.
    - cbn [dget] in G. destruct (S k a); [congruence|]. destruct (IH k G ND') as [d' [E [ND2 [IN GET]]]]. rewrite E. cbn [rbind].
      exists ((a, v) :: d'). split; [reflexivity|]. split; [|split].
      + change (NoDup (a :: dkeys d')). constructor; [|exact ND2]. intro X. apply N. exact (IN a X).
      + intros x [X|X]; [left; exact X | right; apply IN; exact X].
      + intro k'. cbn [dget]. rewrite GET. destruct (S k' a) as [-> |]; [|reflexivity]. destruct (S a k); [congruence | reflexivity].
  Qed.
  Lemma dget_in : forall (d : list (K * A)) k, In k (dkeys d) <-> dget eqb d k <> None.
  Proof using S.
    intros d k. split; intro H.
    - intro G. apply (dget_None_notin S) in G. tauto.
    - destruct (inb_spec S k (dkeys d)) as [I|N]; [exact I|]. apply (dget_None_notin S) in N. congruence.
  Qed.
  Lemma in_dset : forall (d : list (K * A)) k v x, In x (dkeys (dset eqb d k v)) <-> x = k \/ In x (dkeys d).
  Proof using S.
    intros d k v x. rewrite !dget_in, (dget_dset S). destruct (S x k) as [-> |N]; [split; [left; reflexivity | discriminate] |].
    split; [right; assumption | intros [?|?]; [congruence | assumption]].
  Qed.
End Del.

Lemma existsb_met : forall (ms : list ((val * string) * nat)) m',
  existsb (fun e => val_eqb (fst (fst e)) m') ms = true <-> exists n, In (m', n) (dkeys ms).
Proof.
  intros ms m'. rewrite existsb_exists. split.
  - intros [[[a n] i] [I E]]. cbn [fst] in E. destruct (val_eqb_spec a m') as [-> |]; [|discriminate]. exists n. apply (in_map fst) in I. exact I.
  - intros [n I]. apply in_map_iff in I. destruct I as [[[a k] i] [E I]]. cbn [fst] in E. exists (a, k, i). split; [exact I|]. cbn [fst].
    assert (a = m') as -> by congruence. destruct (val_eqb_spec m' m'); [reflexivity | congruence].
Qed.

Section Invariant.
  Variable Class Object : Type.
  Local Notation P := (properties Class Object).

  (** The grids kept contain those of every matcher. *)
  Definition kept (p : P) : Prop :=
    NoDup (dkeys (p_matchers _ _ p)) /\ NoDup (dkeys (p_Hrich _ _ p)) /\ NoDup (dkeys (p_strippedHe _ _ p)) /\
    forall m n, dget met_eqb (p_matchers _ _ p) (m, n) <> None ->
      dget val_eqb (p_Hrich _ _ p) m <> None /\ dget val_eqb (p_strippedHe _ _ p) m <> None.

  Definition same_rest (p p' : P) : Prop :=
    p_kwargs _ _ p' = p_kwargs _ _ p /\ p_attrs _ _ p' = p_attrs _ _ p /\ p_hooks _ _ p' = p_hooks _ _ p /\
    p_step_names _ _ p' = p_step_names _ _ p /\ p_loaded _ _ p' = p_loaded _ _ p.

  Lemma forget_spec : forall l m name (p : P), kept p -> NoDup l -> (forall k, In k l -> In k (dkeys (p_matchers _ _ p))) ->
    exists p', forget _ _ l m name p = (p', Ok tt) /\ kept p' /\ same_rest p p' /\ p_heap _ _ p' = p_heap _ _ p /\
      (forall m' n', dget met_eqb (p_matchers _ _ p') (m', n') =
         if inb met_eqb (m', n') l && negb (val_eqb m' m) && String.eqb n' name then None else dget met_eqb (p_matchers _ _ p) (m', n')) /\
      (forall m' n', dget met_eqb (p_matchers _ _ p') (m', n') <> None ->
         dget val_eqb (p_Hrich _ _ p') m' = dget val_eqb (p_Hrich _ _ p) m' /\ dget val_eqb (p_strippedHe _ _ p') m' = dget val_eqb (p_strippedHe _ _ p) m') /\
      (forall m' f, (dget val_eqb (p_Hrich _ _ p') m' = Some f -> dget val_eqb (p_Hrich _ _ p) m' = Some f) /\
                    (dget val_eqb (p_strippedHe _ _ p') m' = Some f -> dget val_eqb (p_strippedHe _ _ p) m' = Some f)).
  Proof using Type.
    induction l as [|[m1 n1] l IH]; intros m name p K NDl INC.
    - exists p. cbn [forget]. split; [reflexivity|]. split; [exact K|]. split; [repeat split|]. split; [reflexivity|].
      split; [reflexivity|]. split; [intros; split; reflexivity | intros; split; intro X; exact X].
    - inversion NDl as [|? ? NL NDl']; subst. cbn [forget].
      destruct (negb (val_eqb m1 m) && String.eqb n1 name) eqn:B.
      + destruct K as [K1 [K2 [K3 K4]]].
        assert (dget met_eqb (p_matchers _ _ p) (m1, n1) <> None) as G1 by (apply (dget_in _ met_eqb_spec); apply INC; left; reflexivity).
        destruct (del_ok met_eqb met_eqb_spec (p_matchers _ _ p) (m1, n1) G1 K1) as [ms [E [ND [IN GET]]]]. rewrite E.
        cbv zeta.
        (* the state after deleting, whatever happens to the grids *)
        assert (forall q : P, p_matchers _ _ q = ms -> same_rest p q -> p_heap _ _ q = p_heap _ _ p ->
          NoDup (dkeys (p_Hrich _ _ q)) -> NoDup (dkeys (p_strippedHe _ _ q)) ->
          (forall m', m' <> m1 \/ (exists n, In (m', n) (dkeys ms)) ->
             dget val_eqb (p_Hrich _ _ q) m' = dget val_eqb (p_Hrich _ _ p) m' /\ dget val_eqb (p_strippedHe _ _ q) m' = dget val_eqb (p_strippedHe _ _ p) m') ->
          (forall m' f, (dget val_eqb (p_Hrich _ _ q) m' = Some f -> dget val_eqb (p_Hrich _ _ p) m' = Some f) /\
                    (dget val_eqb (p_strippedHe _ _ q) m' = Some f -> dget val_eqb (p_strippedHe _ _ p) m' = Some f)) ->
          exists p', forget _ _ l m name q = (p', Ok tt) /\ kept p' /\ same_rest p p' /\ p_heap _ _ p' = p_heap _ _ p /\
            (forall m' n', dget met_eqb (p_matchers _ _ p') (m', n') =
               if inb met_eqb (m', n') ((m1, n1) :: l) && negb (val_eqb m' m) && String.eqb n' name then None else dget met_eqb (p_matchers _ _ p) (m', n')) /\
            (forall m' n', dget met_eqb (p_matchers _ _ p') (m', n') <> None ->
               dget val_eqb (p_Hrich _ _ p') m' = dget val_eqb (p_Hrich _ _ p) m' /\ dget val_eqb (p_strippedHe _ _ p') m' = dget val_eqb (p_strippedHe _ _ p) m') /\
            (forall m' f, (dget val_eqb (p_Hrich _ _ p') m' = Some f -> dget val_eqb (p_Hrich _ _ p) m' = Some f) /\
                    (dget val_eqb (p_strippedHe _ _ p') m' = Some f -> dget val_eqb (p_strippedHe _ _ p) m' = Some f))) as STEP.
        { intros q QM QR QH Q1 Q2 QG QF.
          destruct (IH m name q) as [p' [F [K' [R' [H' [M' [GR' FR']]]]]]].
          - split; [rewrite QM; exact ND|]. split; [exact Q1|]. split; [exact Q2|]. intros m' n' G. rewrite QM in G.
            assert (In (m', n') (dkeys ms)) as I by (apply (dget_in _ met_eqb_spec); exact G).
            destruct (QG m' (or_intror (ex_intro _ n' I))) as [E1 E2]. rewrite E1, E2. apply (K4 m' n').
            rewrite GET in G. destruct (met_eqb (m', n') (m1, n1)); congruence.
          - exact NDl'.
          - intros k I. rewrite QM. apply (dget_in _ met_eqb_spec). rewrite GET. destruct (met_eqb_spec k (m1, n1)) as [-> |].
            + contradiction.
            + apply (dget_in _ met_eqb_spec). apply INC. right. exact I.
          - exists p'. split; [exact F|]. split; [exact K'|]. split; [|split; [congruence | split; [|split]]].
            + destruct QR as [A1 [A2 [A3 [A4 A5]]]], R' as [B1 [B2 [B3 [B4 B5]]]]. repeat split; congruence.
            + intros m' n'. rewrite M', QM, GET. cbn [inb].
              destruct (met_eqb_spec (m', n') (m1, n1)) as [EQ|NE].
              * assert (m' = m1) as -> by congruence. assert (n' = n1) as -> by congruence. cbn [andb]. rewrite B.
                destruct (inb met_eqb (m1, n1) l && negb (val_eqb m1 m) && String.eqb n1 name); reflexivity.
              * reflexivity.
            + intros m' n' G. destruct (GR' m' n' G) as [G1' G2']. rewrite G1', G2'. apply QG. right. exists n'.
              apply (dget_in _ met_eqb_spec). rewrite M' in G. rewrite QM in G. destruct (_ && _ && _) in G; congruence.
            + intros m' f. destruct (FR' m' f) as [A1 A2], (QF m' f) as [B1 B2]. tauto. }
        destruct (existsb (fun e => val_eqb (fst (fst e)) m1) ms) eqn:EX.
        * apply STEP; try reflexivity; try assumption; [repeat split | intros m' _; split; reflexivity | intros; split; intro X; exact X].
        * destruct (K4 m1 n1 G1) as [H1 H2].
          destruct (del_ok val_eqb val_eqb_spec (p_Hrich _ _ p) m1 H1 K2) as [h [EH [NDh [_ GETh]]]].
          destruct (del_ok val_eqb val_eqb_spec (p_strippedHe _ _ p) m1 H2 K3) as [he [EHE [NDhe [_ GEThe]]]].
          cbn [set_matchers set_grids p_Hrich p_strippedHe]. rewrite EH. cbn [set_matchers set_grids p_Hrich p_strippedHe]. rewrite EHE.
          apply STEP; try reflexivity; try assumption; [repeat split| |]; cbn [set_matchers set_grids p_Hrich p_strippedHe].
          -- intros m' M. rewrite GETh, GEThe. destruct (val_eqb_spec m' m1) as [-> |]; [|split; reflexivity].
             exfalso. destruct M as [M|M]; [congruence|]. apply existsb_met in M. congruence.
          -- intros m' f. rewrite GETh, GEThe. destruct (val_eqb m' m1); split; congruence.
      + destruct (IH m name p K NDl') as [p' [F [K' [R' [H' [M' [GR' FR']]]]]]]; [intros k I; apply INC; right; exact I|].
        exists p'. split; [exact F|]. split; [exact K'|]. split; [exact R'|]. split; [exact H'|]. split; [|split; [exact GR' | exact FR']].
        intros m' n'. rewrite M'. cbn [inb]. destruct (met_eqb_spec (m', n') (m1, n1)) as [EQ|NE]; [|reflexivity].
        assert (m' = m1) as -> by congruence. assert (n' = n1) as -> by congruence. cbn [andb]. rewrite B.
        replace (inb met_eqb (m1, n1) l && negb (val_eqb m1 m) && String.eqb n1 name) with false; [reflexivity|].
        destruct (inb met_eqb (m1, n1) l); cbn [andb]; [rewrite B|]; reflexivity.
  Qed.

  Variable open_grid : string -> option exn.
  Variable train : options -> option exn.

  (** ** Creating a matcher *)
  Definition grids_named (hms hems : string) (p : P) : Prop :=
    path_of _ _ p "single_HMS_path" = Ok hms /\ path_of _ _ p "single_HeMS_path" = Ok hems /\
    forall m f, (dget val_eqb (p_Hrich _ _ p) m = Some f -> exists z, zstring m = Ok z /\ f = file_of hms z) /\
                (dget val_eqb (p_strippedHe _ _ p) m = Some f -> exists z, zstring m = Ok z /\ f = file_of hems z).

  Lemma grid_spec : forall g m file g' r path, (forall m f, dget val_eqb g m = Some f -> exists z, zstring m = Ok z /\ f = file_of path z) ->
    NoDup (dkeys g) -> (exists z, zstring m = Ok z /\ file = file_of path z) -> grid open_grid g m file = (g', r) ->
    NoDup (dkeys g') /\ (forall m f, dget val_eqb g' m = Some f -> exists z, zstring m = Ok z /\ f = file_of path z) /\
    (forall m', dget val_eqb g m' <> None -> dget val_eqb g' m' = dget val_eqb g m') /\
    (r = Ok tt -> dget val_eqb g' m = Some file).
  Proof using Type.
    intros g m file g' r path N ND [z [Z F]] H. unfold grid in H. destruct (dget val_eqb g m) as [f|] eqn:G.
    - assert (g' = g) as -> by congruence. split; [exact ND|]. split; [exact N|]. split; [reflexivity|]. intros _.
      destruct (N m f G) as [z' [Z' ->]]. assert (z' = z) as -> by congruence. congruence.
    - destruct (open_grid file) as [e|].
      + assert (g' = g) as -> by congruence. split; [exact ND|]. split; [exact N|]. split; [reflexivity|]. congruence.
      + assert (g' = dset val_eqb g m file) as -> by congruence. split; [apply (NoDup_dset val_eqb_spec); exact ND|]. split; [|split].
        * intros m' f' G'. rewrite (dget_dset val_eqb_spec) in G'. destruct (val_eqb_spec m' m) as [-> |]; [|apply N; exact G'].
          exists z. split; [exact Z | congruence].
        * intros m' G'. rewrite (dget_dset val_eqb_spec). destruct (val_eqb_spec m' m) as [-> |]; [congruence | reflexivity].
        * intros _. apply (dget_dset_same val_eqb_spec).
  Qed.

  Lemma create_spec : forall hms hems (p : P) m name o p' r, kept p -> grids_named hms hems p ->
    create_matcher _ _ open_grid train p m name o = (p', r) ->
    kept p' /\ grids_named hms hems p' /\ same_rest p p' /\
    (forall m', dget val_eqb (p_Hrich _ _ p) m' <> None -> dget val_eqb (p_Hrich _ _ p') m' = dget val_eqb (p_Hrich _ _ p) m') /\
    (forall m', dget val_eqb (p_strippedHe _ _ p) m' <> None -> dget val_eqb (p_strippedHe _ _ p') m' = dget val_eqb (p_strippedHe _ _ p) m') /\
    ((exists e, r = Raise e) /\ p_heap _ _ p' = p_heap _ _ p /\ p_matchers _ _ p' = p_matchers _ _ p \/
     r = Ok tt /\ exists z, zstring m = Ok z /\
       let o' := put (put o "grid_Hrich" (VGrid (file_of hms z))) "grid_strippedHe" (VGrid (file_of hems z)) in
       train o' = None /\ p_heap _ _ p' = p_heap _ _ p ++ [Matcher o' o'] /\
       p_matchers _ _ p' = dset met_eqb (p_matchers _ _ p) (m, name) (length (p_heap _ _ p)) /\
       dget val_eqb (p_Hrich _ _ p') m = Some (file_of hms z) /\ dget val_eqb (p_strippedHe _ _ p') m = Some (file_of hems z)).
  Proof using Type.
    intros hms hems p m name o p' r K GN H. pose proof K as [K1 [K2 [K3 K4]]]. pose proof GN as [P1 [P2 GN3]].
    unfold create_matcher in H. rewrite P1, P2 in H. destruct (zstring m) as [z|e] eqn:Z.
    2: { assert (p' = p /\ r = Raise e) as [-> ->] by (split; congruence).
         split; [exact K|]. split; [exact GN|]. split; [repeat split|]. split; [reflexivity|]. split; [reflexivity|]. left. split; [eauto|]. split; reflexivity. }
    destruct (grid open_grid (p_Hrich _ _ p) m (file_of hms z)) as [h r1] eqn:E1.
    destruct (grid_spec _ _ _ _ _ hms (fun m f => proj1 (GN3 m f)) K2 (ex_intro _ z (conj Z eq_refl)) E1) as [A1 [A2 [A3 A4]]].
    destruct r1 as [[]|e].
    2: { assert (p' = set_grids _ _ p h (p_strippedHe _ _ p) /\ r = Raise e) as [-> ->] by (split; congruence).
         split; [|split; [|split; [repeat split | split; [exact A3 | split; [reflexivity | left; split; [eauto | split; reflexivity]]]]]].
         - split; [exact K1|]. split; [exact A1|]. split; [exact K3|]. cbn [set_grids p_matchers p_Hrich p_strippedHe].
           intros m' n' G. destruct (K4 m' n' G) as [B1 B2]. split; [rewrite A3; assumption | exact B2].
         - split; [exact P1|]. split; [exact P2|]. cbn [set_grids p_Hrich p_strippedHe]. intros m' f. split; [apply A2 | apply GN3]. }
    destruct (grid open_grid (p_strippedHe _ _ p) m (file_of hems z)) as [he r2] eqn:E2.
    destruct (grid_spec _ _ _ _ _ hems (fun m f => proj2 (GN3 m f)) K3 (ex_intro _ z (conj Z eq_refl)) E2) as [B1 [B2 [B3 B4]]].
    set (q := set_grids _ _ p h he) in *.
    assert (kept q /\ grids_named hms hems q) as [KQ GQ].
    { split.
      - split; [exact K1|]. split; [exact A1|]. split; [exact B1|]. unfold q. cbn [set_grids p_matchers p_Hrich p_strippedHe].
        intros m' n' G. destruct (K4 m' n' G) as [C1 C2]. split; [rewrite A3 | rewrite B3]; assumption.
      - split; [exact P1|]. split; [exact P2|]. unfold q. cbn [set_grids p_Hrich p_strippedHe]. intros m' f. split; [apply A2 | apply B2]. }
    destruct r2 as [[]|e].
    2: { assert (p' = q /\ r = Raise e) as [-> ->] by (split; congruence).
         split; [exact KQ|]. split; [exact GQ|]. split; [repeat split|]. split; [exact A3|]. split; [exact B3|]. left. split; [eauto|]. split; reflexivity. }
    specialize (A4 eq_refl). specialize (B4 eq_refl). unfold grid_value in H. rewrite A4, B4 in H. cbv zeta in H.
    set (o' := put (put o "grid_Hrich" (VGrid (file_of hms z))) "grid_strippedHe" (VGrid (file_of hems z))) in *.
    destruct (train o') as [e|] eqn:T.
    - assert (p' = q /\ r = Raise e) as [-> ->] by (split; congruence).
      split; [exact KQ|]. split; [exact GQ|]. split; [repeat split|]. split; [exact A3|]. split; [exact B3|]. left. split; [eauto|]. split; reflexivity.
    - assert (p' = set_matchers _ _ q (p_heap _ _ q ++ [Matcher o' o']) (dset met_eqb (p_matchers _ _ q) (m, name) (length (p_heap _ _ q))) /\ r = Ok tt) as [-> ->] by (split; congruence).
      split; [|split; [exact GQ|split; [repeat split|split; [exact A3|split; [exact B3|]]]]].
      + destruct KQ as [C1 [C2 [C3 C4]]]. split; [apply (NoDup_dset met_eqb_spec); exact C1|]. split; [exact C2|]. split; [exact C3|].
        intros m' n' G. cbn [set_matchers p_matchers] in G. rewrite (dget_dset met_eqb_spec) in G.
        destruct (met_eqb_spec (m', n') (m, name)) as [EQ|]; [|apply (C4 m' n'); exact G]. assert (m' = m) as -> by congruence.
        unfold q. cbn [set_matchers set_grids p_Hrich p_strippedHe]. split; congruence.
      + right. split; [reflexivity|]. exists z. split; [reflexivity|]. cbv zeta. fold o'. split; [exact T|]. unfold q. cbn [set_matchers set_grids p_heap p_matchers p_Hrich p_strippedHe].
        split; [reflexivity|]. split; [reflexivity|]. split; assumption.
  Qed.

End Invariant.
Arguments kept {Class Object} _.
Arguments same_rest {Class Object} _ _.
Arguments grids_named {Class Object} _ _ _.

(** ** Options of a matcher *)
Lemma put_all_keys : forall (l d : options), (forall k, In k (dkeys l) -> In k (dkeys d)) -> dkeys (dset_all String.eqb d l) = dkeys d.
Proof.
  induction l as [|[k v] l IH]; intros d H; [reflexivity|]. change (dset_all String.eqb d ((k, v) :: l)) with (dset_all String.eqb (put d k v) l).
  assert (dkeys (put d k v) = dkeys d) as E.
  { rewrite (dkeys_dset String.eqb_spec). unfold dmem. destruct (get d k) eqn:G; [reflexivity|].
    apply (dget_None_notin String.eqb_spec) in G. exfalso. apply G. apply H. left. reflexivity. }
  rewrite IH; [exact E|]. rewrite E. intros k' K'. apply H. right. exact K'.
Qed.
Lemma separate_spec : forall d, NoDup (dkeys d) ->
  (forall k, get (fst (separate d)) k = if inb String.eqb k (dkeys matcher_defaults) && negb (String.eqb k "metallicity") then None else get d k) /\
  NoDup (dkeys (fst (separate d))) /\
  dkeys (snd (separate d)) = dkeys matcher_defaults /\
  (forall k, In k (dkeys matcher_defaults) -> get (snd (separate d)) k = match get d k with Some v => Some v | None => get matcher_defaults k end).
Proof.
  intros d ND. unfold separate. cbn [fst snd]. split; [|split; [|split]].
  - intro k. rewrite (proj1 (get_pop_all _ _ d k ND)).
    replace (inb String.eqb k (filter (fun k0 => negb (String.eqb k0 "metallicity")) (dkeys matcher_defaults)))
      with (inb String.eqb k (dkeys matcher_defaults) && negb (String.eqb k "metallicity")); [reflexivity|].
    destruct (inb_spec String.eqb_spec k (filter (fun k0 => negb (String.eqb k0 "metallicity")) (dkeys matcher_defaults))) as [I|N];
    destruct (inb_spec String.eqb_spec k (dkeys matcher_defaults)) as [I'|N']; rewrite filter_In in *; cbn [andb]; try tauto.
    destruct (negb (String.eqb k "metallicity")); tauto.
  - apply (get_pop_all _ _ d ""). exact ND.
  - apply put_all_keys. intros k K. rewrite (filter_keys _ (has matcher_defaults)) in K. apply filter_In in K. destruct K as [_ K]. unfold has in K.
    apply (dget_in _ String.eqb_spec). destruct (get matcher_defaults k); congruence.
  - intros k K. rewrite (dget_dset_all String.eqb_spec), (last_write_get _ _ _ String.eqb_spec).
    + rewrite (dget_filter _ (has matcher_defaults)). unfold has. apply (dget_in _ String.eqb_spec) in K.
      destruct (get matcher_defaults k); [|congruence]. destruct (get d k); reflexivity.
    + rewrite (filter_keys _ (has matcher_defaults)). apply NoDup_filter. exact ND.
Qed.

Lemma update_spec : forall mo given current rt, NoDup (dkeys mo) -> (forall k, In k (dkeys mo) -> get current k <> None) ->
  exists o rt', update_options mo given current rt = Ok (o, rt') /\
    (forall k, get o k = match get mo k, get given k, get current k with
                         | Some v, Some g, Some c => if val_eqb c g then Some c else Some v
                         | _, _, _ => get current k end) /\
    (rt' = true <-> rt = true \/ exists k g c, In k training_triggers /\ In k (dkeys mo) /\ get given k = Some g /\ get current k = Some c /\ c <> g).
Proof.
  induction mo as [|[k v] mo IH]; intros given current rt ND C.
  - exists current, rt. split; [reflexivity|]. split; [reflexivity|]. split; [tauto|]. intros [H|[k [g [c [_ [[] _]]]]]]; exact H.
  - inversion ND as [|? ? N ND']; subst. cbn [update_options].
    assert (forall k', In k' (dkeys mo) -> get current k' <> None) as C' by (intros k' K'; apply C; right; exact K').
    assert (get mo k = None) as MK by (apply (dget_None_notin String.eqb_spec); exact N).
    destruct (get given k) as [g|] eqn:G.
    + destruct (get current k) as [c|] eqn:CU; [|exfalso; apply (C k); [left; reflexivity | exact CU]].
      destruct (val_eqb_spec c g) as [-> |NE].
      * destruct (IH given current rt ND' C') as [o [rt' [E [GO R]]]]. exists o, rt'. split; [exact E|]. split.
        -- intro k'. rewrite GO. cbn [dget]. destruct (String.eqb_spec k' k) as [-> |]; [|reflexivity]. rewrite MK, G, CU.
           destruct (val_eqb_spec g g); [reflexivity | congruence].
        -- rewrite R. split; (intros [H|[k' [g' [c' [H1 [H2 [H3 [H4 H5]]]]]]]]; [left; exact H|]); right; exists k', g', c'.
           ++ split; [exact H1|]. split; [right; exact H2|]. tauto.
           ++ change (k = k' \/ In k' (dkeys mo)) in H2. destruct H2 as [<- |H2]; [congruence|]. tauto.
      * destruct (IH given (put current k v) (rt || inb String.eqb k training_triggers) ND') as [o [rt' [E [GO R]]]].
        { intros k' K'. rewrite (dget_dset String.eqb_spec). destruct (String.eqb k' k); [discriminate | apply C'; exact K']. }
        exists o, rt'. split; [exact E|]. split.
        -- intro k'. rewrite GO. cbn [dget]. rewrite (dget_dset String.eqb_spec). destruct (String.eqb_spec k' k) as [-> |]; [|reflexivity].
           rewrite MK, G, CU. destruct (val_eqb_spec c g); [congruence | reflexivity].
        -- rewrite R, orb_true_iff. split.
           ++ intros [[H|H]|[k' [g' [c' [H1 [H2 [H3 [H4 H5]]]]]]]].
              ** left. exact H.
              ** right. exists k, g, c. destruct (inb_spec String.eqb_spec k training_triggers) as [I|]; [|discriminate].
                 split; [exact I|]. split; [left; reflexivity|]. tauto.
              ** right. exists k', g', c'. split; [exact H1|]. split; [right; exact H2|]. split; [exact H3|]. split; [|exact H5].
                 rewrite (dget_dset String.eqb_spec) in H4. destruct (String.eqb_spec k' k) as [-> |]; [contradiction | exact H4].
           ++ intros [H|[k' [g' [c' [H1 [H2 [H3 [H4 H5]]]]]]]]; [left; left; exact H|].
              change (k = k' \/ In k' (dkeys mo)) in H2. destruct H2 as [<- |H2].
              ** left. right. destruct (inb_spec String.eqb_spec k training_triggers); [reflexivity | contradiction].
              ** right. exists k', g', c'. split; [exact H1|]. split; [exact H2|]. split; [exact H3|]. split; [|exact H5].
                 rewrite (dget_dset String.eqb_spec). destruct (String.eqb_spec k' k) as [-> |]; [contradiction | exact H4].
    + destruct (IH given current rt ND' C') as [o [rt' [E [GO R]]]]. exists o, rt'. split; [exact E|]. split.
      * intro k'. rewrite GO. cbn [dget]. destruct (String.eqb_spec k' k) as [-> |]; [|reflexivity]. rewrite MK, G. reflexivity.
      * rewrite R. split; (intros [H|[k' [g' [c' [H1 [H2 [H3 [H4 H5]]]]]]]]; [left; exact H|]); right; exists k', g', c'.
        -- split; [exact H1|]. split; [right; exact H2|]. tauto.
        -- change (k = k' \/ In k' (dkeys mo)) in H2. destruct H2 as [<- |H2]; [congruence|]. tauto.
Qed.

Lemma nth_set_nth : forall (l : list matcher) i x j, i < length l -> nth_error (set_nth l i x) j = if Nat.eqb j i then Some x else nth_error l j.
Proof.
  intros l i x j L. unfold set_nth. destruct (Nat.eqb_spec j i) as [-> |NE].
  - rewrite nth_error_app2 by (rewrite firstn_length; lia). rewrite firstn_length, Nat.min_l by lia. rewrite Nat.sub_diag. reflexivity.
  - destruct (Nat.lt_ge_cases j i) as [LT|GE].
    + rewrite nth_error_app1 by (rewrite firstn_length; lia). apply nth_firstn_lt. exact LT.
    + rewrite nth_error_app2 by (rewrite firstn_length; lia). rewrite firstn_length, Nat.min_l by lia.
      replace (j - i)%nat with (S (j - S i)) by lia. cbn [nth_error]. rewrite nth_skipn. f_equal. lia.
Qed.
Lemma set_nth_length : forall (l : list matcher) i x, i < length l -> length (set_nth l i x) = length l.
Proof. intros l i x L. unfold set_nth. rewrite app_length. cbn [length]. rewrite firstn_length, skipn_length. lia. Qed.
