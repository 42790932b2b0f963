(** Lemmas about the constructors of stars and binaries. *)
From Coq Require Import Reals String Bool List Lra Lia.
From Verif Require Import PyBase PyStr OrbitModel InspiralModel StarInitModel.
From Verif Require BinaryModel SNNameModel.
Import ListNotations.
Open Scope string_scope.
Open Scope R_scope.
Open Scope list_scope.

Lemma append_cancel (a b s : string) : (a ++ s = b ++ s)%string -> a = b.
Proof.
  assert (L : forall x y, String.length (x ++ y)%string = (String.length x + String.length y)%nat) by (induction x as [|c x IH]; intros y; cbn; [reflexivity|now rewrite IH]).
  revert b. induction a as [|c a IH]; intros [|d b] E; [reflexivity| | |].
  - exfalso. apply (f_equal String.length) in E. rewrite !L in E. cbn in E. lia.
  - exfalso. apply (f_equal String.length) in E. rewrite !L in E. cbn in E. lia.
  - cbn in E. assert (c = d) by congruence. subst d. f_equal. apply IH. congruence.
Qed.
Lemma hist_inj a b : hist a = hist b -> a = b. Proof. apply append_cancel. Qed.
Lemma hist_in q : py_in "_history" (hist q) = true.
Proof.
  apply py_in_iff. exists q, "". unfold hist. f_equal.
Qed.
Definition plain (l : list string) : Prop := forall p, In p l -> py_in "_history" p = false.
Lemma plain_hist l p q : plain l -> In p l -> p <> hist q.
Proof. intros H I ->. assert (K := H _ I). rewrite hist_in in K. discriminate. Qed.
Lemma plain_test l : forallb (fun p => negb (py_in "_history" p)) l = true -> plain l.
Proof. intros H p I. rewrite forallb_forall in H. specialize (H p I). now destruct (py_in "_history" p). Qed.
Lemma star_plain : plain BinaryModel.STARPROPERTIES. Proof. apply plain_test. vm_compute. reflexivity. Qed.
Lemma binary_plain : plain BinaryModel.BINARYPROPERTIES. Proof. apply plain_test. vm_compute. reflexivity. Qed.
Lemma nodup_test (l : list string) : (if list_eq_dec string_dec (nodup string_dec l) l then true else false) = true -> NoDup l.
Proof. destruct (list_eq_dec string_dec (nodup string_dec l) l) as [E|]; [|discriminate]. intros _. rewrite <- E. apply NoDup_nodup. Qed.
Lemma star_nodup : NoDup BinaryModel.STARPROPERTIES. Proof. apply nodup_test. vm_compute. reflexivity. Qed.
Lemma binary_nodup : NoDup BinaryModel.BINARYPROPERTIES. Proof. apply nodup_test. vm_compute. reflexivity. Qed.

(** Attributes and keywords *)
Lemma set_same o k v : setattr o k v k = Some v. Proof. unfold setattr. now rewrite String.eqb_refl. Qed.
Lemma set_other o k v k' : k' <> k -> setattr o k v k' = o k'.
Proof. intros H. unfold setattr. destruct (String.eqb_spec k' k); [contradiction|reflexivity]. Qed.
Lemma hist_not k : k <> hist k.
Proof.
  intros E. assert (K := f_equal String.length E). unfold hist in K.
  assert (L : forall x y, String.length (x ++ y)%string = (String.length x + String.length y)%nat) by (induction x as [|c x IH]; intros y; cbn; [reflexivity|now rewrite IH]).
  rewrite L in K. cbn in K. lia.
Qed.
Lemma kget_del kw k k' : kget (kdel kw k) k' = if String.eqb k' k then None else kget kw k'.
Proof.
  induction kw as [|(x, v) kw IH]; [cbn; now destruct (String.eqb k' k)|].
  unfold kdel, kget in *. cbn [filter fst]. destruct (String.eqb_spec x k) as [-> | N]; cbn [negb dget].
  - rewrite IH. now destruct (String.eqb_spec k' k).
  - destruct (String.eqb_spec k' x) as [-> | N'].
    + destruct (String.eqb_spec x k); [contradiction|reflexivity].
    + exact IH.
Qed.
Lemma kget_set kw k v k' : kget (dset String.eqb kw k v) k' = if String.eqb k' k then Some v else kget kw k'.
Proof. apply dget_dset. exact String.eqb_spec. Qed.
Lemma kget_in kw k : kget kw k <> None <-> In k (map fst kw).
Proof.
  unfold kget. assert (D := dget_None_notin String.eqb_spec kw k). unfold dkeys in D. split.
  - intros H. destruct (in_dec string_dec k (map fst kw)) as [I | I]; [exact I|]. apply D in I. contradiction.
  - intros I H. apply D in H. contradiction.
Qed.

(** The loop over the properties of a star *)
Lemma star_loop f c : forall l o kw o' kw', NoDup l -> plain l -> fold_left (set_property f c) l (o, kw) = (o', kw') ->
  (forall k, kget kw' k = if in_dec string_dec k l then if String.eqb k "metallicity" then kget kw k else None else kget kw k) /\
  (forall k, ~ In k l -> (forall q, In q l -> k <> hist q) -> o' k = o k) /\
  (forall p, In p l -> p <> "metallicity" ->
     o' p = Some (kpop kw p (default_of f c p)) /\ o' (hist p) = Some (Lst [kpop kw p (default_of f c p)])) /\
  (o' "metallicity" = o "metallicity") /\
  (In "metallicity" l -> forall v, o "metallicity" = Some v -> o' (hist "metallicity") = Some (Lst [v])).
Proof.
  induction l as [|x l IH]; intros o kw o' kw' ND PL E.
  - cbn in E. assert (o' = o) by congruence. assert (kw' = kw) by congruence. subst. repeat split; try contradiction; reflexivity.
  - cbn [fold_left] in E. inversion ND as [|? ? N ND']; subst. assert (PL' : plain l) by (intros p I; apply PL; now right).
    assert (PX : forall q, x <> hist q) by (intros q; apply (plain_hist (x :: l)); [exact PL|now left]).
    assert (PQ : forall p q, In p l -> p <> hist q) by (intros p q I; now apply (plain_hist l)).
    unfold set_property at 2 in E. destruct (String.eqb_spec x "metallicity") as [-> | NX].
    + destruct (IH _ _ _ _ ND' PL' E) as (A & B & C & D & _). split; [|split; [|split; [|split]]].
      * intros k. rewrite A. destruct (in_dec string_dec k l) as [I | I].
        -- destruct (in_dec string_dec k ("metallicity" :: l)) as [_ | J]; [reflexivity|elim J; now right].
        -- destruct (in_dec string_dec k ("metallicity" :: l)) as [[<- | J] | J]; [now rewrite String.eqb_refl|contradiction|reflexivity].
      * intros k I H. rewrite B; [|intros J; apply I; now right|intros q Q; apply H; now right]. apply set_other. apply H. now left.
      * intros p [<- | I] NP; [congruence|]. now apply C.
      * rewrite D. apply set_other. apply PX.
      * intros _ v V. rewrite B; [rewrite set_same, V; reflexivity| |].
        -- intros I. apply (PQ _ "metallicity" I). reflexivity.
        -- intros q Q K. apply hist_inj in K. now subst.
    + destruct (IH _ _ _ _ ND' PL' E) as (A & B & C & D & F). split; [|split; [|split; [|split]]].
      * intros k. rewrite A, kget_del. destruct (String.eqb_spec k x) as [-> | NK].
        -- destruct (in_dec string_dec x l) as [I | I]; [contradiction|]. destruct (in_dec string_dec x (x :: l)) as [_ | J]; [|elim J; now left].
           destruct (String.eqb_spec x "metallicity"); [contradiction|reflexivity].
        -- destruct (in_dec string_dec k l) as [I | I].
           ++ destruct (in_dec string_dec k (x :: l)) as [_ | J]; [reflexivity|elim J; now right].
           ++ destruct (in_dec string_dec k (x :: l)) as [[-> | J] | J]; [contradiction|contradiction|reflexivity].
      * intros k I H. rewrite B; [|intros J; apply I; now right|intros q Q; apply H; now right].
        rewrite !set_other; [reflexivity|intros ->; apply I; now left|apply H; now left].
      * intros p [<- | I] NP.
        -- split.
           ++ rewrite B; [|exact N|intros q _; apply PX]. rewrite set_other by apply PX. apply set_same.
           ++ rewrite B; [apply set_same|intros J; now apply (PQ _ x J)|]. intros q Q K. apply hist_inj in K. now subst.
        -- destruct (C p I NP) as (C1 & C2). assert (W : kpop (kdel kw x) p (default_of f c p) = kpop kw p (default_of f c p)).
           { unfold kpop. rewrite kget_del. destruct (String.eqb_spec p x) as [-> |]; [contradiction|reflexivity]. }
           rewrite W in C1, C2. now split.
      * rewrite D. rewrite !set_other; [reflexivity|congruence|]. intros K. assert (J := hist_in x). rewrite <- K in J. discriminate.
      * intros [K | I] v V; [congruence|]. apply F; [exact I|]. rewrite !set_other; [exact V|congruence|]. apply PQ. exact I.
Qed.
(** Further keywords *)
Lemma extras_keep : forall kw o k, kget kw k = None -> (forall q, kget kw q <> None -> k <> hist q) -> fold_left set_extra kw o k = o k.
Proof.
  induction kw as [|(x, v) kw IH]; intros o k N H; [reflexivity|]. cbn [fold_left].
  assert (NX : k <> x) by (intros ->; unfold kget in N; cbn [dget] in N; rewrite String.eqb_refl in N; discriminate).
  rewrite IH.
  - unfold set_extra. cbn [fst snd]. assert (K : k <> hist x).
    { apply H. unfold kget. cbn [dget]. rewrite String.eqb_refl. discriminate. }
    destruct (existsb (String.eqb x) NO_HISTORY); rewrite !set_other; trivial.
  - unfold kget in N |- *. cbn [dget] in N. destruct (String.eqb_spec k x); [contradiction|exact N].
  - intros q Q. apply H. unfold kget in Q |- *. cbn [dget]. destruct (String.eqb_spec q x); [discriminate|exact Q].
Qed.
Lemma missing_keep v : forall l o k w, o k = Some w -> fold_left (set_missing v) l o k = Some w.
Proof.
  induction l as [|x l IH]; intros o k w H; [exact H|]. cbn [fold_left]. apply IH. unfold set_missing, hasattr.
  destruct (o x) eqn:E; [exact H|]. rewrite set_other; [exact H|]. intros ->. congruence.
Qed.

(** What SingleStar makes of a property, whatever else is given *)
Lemma kick_get kw kw' k : expand_kick kw = Ok kw' -> In k BinaryModel.STARPROPERTIES \/ (exists p, k = hist p /\ In p BinaryModel.STARPROPERTIES) -> kget kw' k = kget kw k.
Proof.
  intros E K. unfold expand_kick in E.
  assert (NI : ~ In k ["natal_kick_velocity"; "natal_kick_azimuthal_angle"; "natal_kick_polar_angle"; "natal_kick_mean_anomaly"; "natal_kick_array"]).
  { intros J. destruct K as [K | (p & -> & K)].
    - assert (T : forallb (fun x => negb (existsb (String.eqb x) BinaryModel.STARPROPERTIES))
        ["natal_kick_velocity"; "natal_kick_azimuthal_angle"; "natal_kick_polar_angle"; "natal_kick_mean_anomaly"; "natal_kick_array"] = true) by (vm_compute; reflexivity).
      rewrite forallb_forall in T. specialize (T k J). apply negb_true_iff in T. assert (T' : existsb (String.eqb k) BinaryModel.STARPROPERTIES = true); [|congruence].
      apply existsb_exists. exists k. split; [exact K|apply String.eqb_refl].
    - assert (L : plain ["natal_kick_velocity"; "natal_kick_azimuthal_angle"; "natal_kick_polar_angle"; "natal_kick_mean_anomaly"; "natal_kick_array"]) by (apply plain_test; reflexivity).
      apply (plain_hist _ _ p L J). reflexivity. }
  destruct (kget kw "natal_kick_array") as [v|]; [|congruence].
  destruct v as [s | x | | l | n]; try discriminate. destruct l as [|a [|b [|c [|d l]]]]; try discriminate.
  match type of E with Ok ?t = _ => assert (W : kw' = t) by congruence end. subst kw'. clear E.
  rewrite kget_del. cbn [dset_all fold_left fst snd]. rewrite !kget_set.
  cbn [In] in NI.
  destruct (String.eqb_spec k "natal_kick_array"); [subst; exfalso; apply NI; tauto|].
  destruct (String.eqb_spec k "natal_kick_mean_anomaly"); [subst; exfalso; apply NI; tauto|].
  destruct (String.eqb_spec k "natal_kick_polar_angle"); [subst; exfalso; apply NI; tauto|].
  destruct (String.eqb_spec k "natal_kick_azimuthal_angle"); [subst; exfalso; apply NI; tauto|].
  destruct (String.eqb_spec k "natal_kick_velocity"); [subst; exfalso; apply NI; tauto|]. reflexivity.
Qed.
Lemma found_get Z st kw f k : find_defaults Z st kw = Ok f -> k <> "state" \/ is_compact st = false -> kget (f_kw f) k = kget kw k.
Proof.
  intros E K. unfold find_defaults in E. destruct st as [s | x | | l | n]; try (destruct (lookup_Z Z); discriminate).
  cbn [is_compact] in K. destruct (existsb (String.eqb s) CO_states).
  - destruct (String.eqb s "massless_remnant"); [match type of E with Ok ?t = _ => assert (f = t) by congruence end; now subst|].
    destruct (CO_log_R (mass_of kw) s); [|discriminate]. cbn [rbind] in E. destruct (infer_CO _ _); [|discriminate]. cbn [rbind] in E.
    match type of E with Ok ?t = _ => assert (f = t) by congruence end. subst f. cbn [f_kw]. destruct (String.eqb s a0); [reflexivity|].
    rewrite kget_set. destruct (String.eqb_spec k "state"); [|reflexivity]. destruct K; [contradiction|discriminate].
  - destruct (lookup_Z Z) as [(z, y)|]; [|discriminate]. cbn [rbind] in E.
    repeat match type of E with (if ?b then _ else _) = _ => destruct b end;
      match type of E with Ok ?t = _ => assert (f = t) by congruence end; now subst.
Qed.
Lemma found_state Z st kw f : find_defaults Z (Txt st) kw = Ok f -> is_compact (Txt st) = true -> st <> "massless_remnant" ->
  exists st', infer_CO (mass_of kw) [kpop kw "surface_h1" nan; kpop kw "center_h1" nan; kpop kw "center_he4" nan; kpop kw "center_c12" nan] = Ok st' /\
  kget (f_kw f) "state" = (if String.eqb st st' then kget kw "state" else Some (Txt st')) /\ CO_log_R (mass_of kw) st = Ok (d_log_R f).
Proof.
  intros E K N. unfold find_defaults in E. cbn [is_compact] in K. rewrite K in E. destruct (String.eqb_spec st "massless_remnant"); [contradiction|].
  destruct (CO_log_R (mass_of kw) st); [|discriminate]. cbn [rbind] in E. destruct (infer_CO _ _) as [st'|]; [|discriminate]. cbn [rbind] in E.
  match type of E with Ok ?t = _ => assert (f = t) by congruence end. subst f. exists st'. split; [reflexivity|]. split; [|reflexivity]. cbn [f_kw].
  destruct (String.eqb st st'); [reflexivity|]. rewrite kget_set. now rewrite String.eqb_refl.
Qed.

(** The parts of a star that was made *)
Lemma star_parts kw o : SingleStar kw = Ok o ->
  (forall q, In q BinaryModel.STARPROPERTIES -> kget kw (hist q) = None) ->
  exists kw2 f, expand_kick (kdel kw "metallicity") = Ok kw2 /\
  find_defaults (kpop kw "metallicity" (num 1)) (kpop (kdel kw "metallicity") "state" (Txt "H-rich_Core_H_burning")) kw2 = Ok f /\
  (forall p, In p BinaryModel.STARPROPERTIES -> let v := if String.eqb p "metallicity" then kpop kw "metallicity" (num 1)
     else kpop (f_kw f) p (default_of f (is_compact (kpop (kdel kw "metallicity") "state" (Txt "H-rich_Core_H_burning"))) p) in
     o p = Some v /\ o (hist p) = Some (Lst [v])).
Proof.
  intros E H. unfold SingleStar in E. set (Z := kpop kw "metallicity" (num 1)) in *. set (kw1 := kdel kw "metallicity") in *.
  set (st := kpop kw1 "state" (Txt "H-rich_Core_H_burning")) in *.
  destruct (expand_kick kw1) as [kw2|] eqn:EK; [|discriminate]. cbn [rbind] in E.
  destruct (find_defaults Z st kw2) as [f|] eqn:EF; [|discriminate]. cbn [rbind] in E.
  destruct (fold_left _ _ _) as (o1, kw3) eqn:EL. assert (W : o = fold_left (set_missing Nil) LATER (fold_left set_extra kw3 o1)) by congruence. clear E.
  exists kw2, f. split; [reflexivity|]. split; [exact EF|]. intros p I v.
  destruct (star_loop f (is_compact st) _ _ _ _ _ star_nodup star_plain EL) as (A & B & C & D & F).
  assert (G : forall k, o1 k <> None -> kget kw3 k = None -> (forall q, kget kw3 q <> None -> k <> hist q) -> o k = o1 k).
  { intros k N1 N2 N3. destruct (o1 k) as [w|] eqn:EO; [|contradiction]. rewrite W. apply missing_keep. rewrite extras_keep; assumption. }
  assert (M : kget kw3 "metallicity" = None).
  { rewrite A. destruct (in_dec string_dec "metallicity" BinaryModel.STARPROPERTIES) as [_ | J]; [|elim J; cbn; tauto]. rewrite String.eqb_refl.
    rewrite (found_get _ _ _ _ "metallicity" EF) by (left; discriminate). rewrite (kick_get _ _ "metallicity" EK) by (left; cbn; tauto).
    unfold kw1. rewrite kget_del. reflexivity. }
  assert (N1 : forall q, In q BinaryModel.STARPROPERTIES -> kget kw3 q = None).
  { intros q Q. destruct (String.eqb_spec q "metallicity") as [-> | NQ]; [exact M|]. rewrite A.
    destruct (in_dec string_dec q BinaryModel.STARPROPERTIES) as [_ | J]; [|contradiction]. destruct (String.eqb_spec q "metallicity"); [contradiction|reflexivity]. }
  assert (N2 : forall q, In q BinaryModel.STARPROPERTIES -> kget kw3 (hist q) = None).
  { intros q Q. rewrite A. destruct (in_dec string_dec (hist q) BinaryModel.STARPROPERTIES) as [J | _].
    - exact (False_ind _ (plain_hist BinaryModel.STARPROPERTIES (hist q) q star_plain J eq_refl)).
    - rewrite (found_get _ _ _ _ (hist q) EF) by (left; intros K; assert (T := hist_in q); rewrite K in T; discriminate).
      rewrite (kick_get _ _ (hist q) EK) by (right; exists q; split; [reflexivity|exact Q]). unfold kw1. rewrite kget_del. destruct (String.eqb (hist q) "metallicity"); [reflexivity|exact (H q Q)]. }
  assert (V : o1 p = Some v /\ o1 (hist p) = Some (Lst [v])).
  { unfold v. destruct (String.eqb_spec p "metallicity") as [-> | NP]; [|exact (C p I NP)]. split; [rewrite D; apply set_same|]. apply F; [exact I|apply set_same]. }
  destruct V as (V1 & V2). split.
  - rewrite G; [exact V1|congruence|now apply N1|]. intros q _. exact (plain_hist BinaryModel.STARPROPERTIES p q star_plain I).
  - rewrite G; [exact V2|congruence|now apply N2|]. intros q Q K. apply hist_inj in K. subst q. rewrite N1 in Q; [congruence|exact I].
Qed.

(** A binary *)
Lemma binary_loop : forall l o kw o' kw', NoDup l -> plain l -> fold_left set_b_property l (o, kw) = (o', kw') ->
  (forall k, kget kw' k = if in_dec string_dec k l then None else kget kw k) /\
  (forall k, ~ In k l -> (forall q, In q l -> k <> hist q) -> o' k = o k) /\
  (forall p, In p l -> o' p = Some (kpop kw p (b_default p)) /\ o' (hist p) = Some (Lst [kpop kw p (b_default p)])).
Proof.
  induction l as [|x l IH]; intros o kw o' kw' ND PL E.
  - cbn in E. assert (o' = o) by congruence. assert (kw' = kw) by congruence. subst. repeat split; try contradiction; reflexivity.
  - cbn [fold_left] in E. inversion ND as [|? ? N ND']; subst. assert (PL' : plain l) by (intros p I; apply PL; now right).
    assert (PX : forall q, x <> hist q) by (intros q; apply (plain_hist (x :: l)); [exact PL|now left]).
    unfold set_b_property at 2 in E. destruct (IH _ _ _ _ ND' PL' E) as (A & B & C). split; [|split].
    + intros k. rewrite A, kget_del. destruct (String.eqb_spec k x) as [-> | NK].
      * destruct (in_dec string_dec x l) as [I | I]; destruct (in_dec string_dec x (x :: l)) as [_ | J]; try reflexivity; elim J; now left.
      * destruct (in_dec string_dec k l) as [I | I].
        -- destruct (in_dec string_dec k (x :: l)) as [_ | J]; [reflexivity|elim J; now right].
        -- destruct (in_dec string_dec k (x :: l)) as [[-> | J] | J]; [contradiction|contradiction|reflexivity].
    + intros k I H. rewrite B; [|intros J; apply I; now right|intros q Q; apply H; now right].
      rewrite !set_other; [reflexivity|intros ->; apply I; now left|apply H; now left].
    + intros p [<- | I].
      * split.
        -- rewrite B; [|exact N|intros q _; apply PX]. rewrite set_other by apply PX. apply set_same.
        -- rewrite B; [apply set_same| |].
           ++ intros J. apply (plain_hist l _ x PL' J). reflexivity.
           ++ intros q Q K. apply hist_inj in K. now subst.
      * destruct (C p I) as (C1 & C2). assert (W : kpop (kdel kw x) p (b_default p) = kpop kw p (b_default p)).
        { unfold kpop. rewrite kget_del. destruct (String.eqb_spec p x) as [-> |]; [contradiction|reflexivity]. }
        rewrite W in C1, C2. now split.
Qed.
Lemma b_extras_keep : forall kw o k, kget kw k = None -> (forall q, kget kw q <> None -> k <> hist q) -> fold_left set_b_extra kw o k = o k.
Proof.
  induction kw as [|(x, v) kw IH]; intros o k N H; [reflexivity|]. cbn [fold_left].
  assert (NX : k <> x) by (intros ->; unfold kget in N; cbn [dget] in N; rewrite String.eqb_refl in N; discriminate).
  rewrite IH.
  - unfold set_b_extra. cbn [fst snd]. assert (K : k <> hist x).
    { apply H. unfold kget. cbn [dget]. rewrite String.eqb_refl. discriminate. }
    rewrite !set_other; trivial.
  - unfold kget in N |- *. cbn [dget] in N. destruct (String.eqb_spec k x); [contradiction|exact N].
  - intros q Q. apply H. unfold kget in Q |- *. cbn [dget]. destruct (String.eqb_spec q x); [discriminate|exact Q].
Qed.
Lemma b_missing_keep : forall l o k, (forall t, In t l -> k <> snd (fst t)) -> fold_left set_b_missing l o k = o k.
Proof.
  induction l as [|((t, n), v) l IH]; intros o k H; [reflexivity|]. cbn [fold_left]. rewrite IH by (intros u I; apply H; now right).
  unfold set_b_missing. destruct (hasattr o t); [reflexivity|]. apply set_other. apply (H (t, n, v)). now left.
Qed.
(** [mass_transfer_case] is among the names set later, but only if it does not exist. *)
Lemma b_later_keep o k w : (In k BinaryModel.BINARYPROPERTIES \/ exists p, In p BinaryModel.BINARYPROPERTIES /\ k = hist p) ->
  o k = Some w -> fold_left set_b_missing B_LATER o k = Some w.
Proof.
  intros K H.
  assert (G : forall l o, (forall t, In t l -> k <> snd (fst t) \/ fst (fst t) = k) -> o k = Some w -> fold_left set_b_missing l o k = Some w).
  { induction l as [|((t, n), v) l IH]; intros o0 N E; [exact E|]. cbn [fold_left]. apply IH; [intros u I; apply N; now right|].
    unfold set_b_missing, hasattr. destruct (o0 t) eqn:ET; [exact E|]. destruct (N (t, n, v) (or_introl eq_refl)) as [NN | NN]; cbn [fst snd] in NN.
    - now rewrite set_other.
    - subst. congruence. }
  apply G; [|exact H]. intros t T.
  assert (X : k <> snd (fst t) \/ k = "mass_transfer_case").
  { destruct K as [K | (p & P & ->)].
    - assert (V : forallb (fun t => forallb (fun q => negb (String.eqb q (snd (fst t))) || String.eqb q "mass_transfer_case") BinaryModel.BINARYPROPERTIES) B_LATER = true) by (vm_compute; reflexivity).
      rewrite forallb_forall in V. specialize (V t T). rewrite forallb_forall in V. specialize (V k K).
      apply orb_true_iff in V. destruct V as [V | V]; [left; apply negb_true_iff in V; now apply String.eqb_neq|right; now apply String.eqb_eq].
    - left. assert (V : forallb (fun t => forallb (fun q => negb (String.eqb (hist q) (snd (fst t)))) BinaryModel.BINARYPROPERTIES) B_LATER = true) by (vm_compute; reflexivity).
      rewrite forallb_forall in V. specialize (V t T). rewrite forallb_forall in V. specialize (V p P). apply negb_true_iff in V. now apply String.eqb_neq. }
  destruct X as [X | ->]; [now left|].
  assert (V : forallb (fun t => negb (String.eqb "mass_transfer_case" (snd (fst t))) || String.eqb (fst (fst t)) "mass_transfer_case") B_LATER = true) by (vm_compute; reflexivity).
  rewrite forallb_forall in V. specialize (V t T). apply orb_true_iff in V.
  destruct V as [V | V]; [left; apply negb_true_iff in V; now apply String.eqb_neq|right; now apply String.eqb_eq].
Qed.
