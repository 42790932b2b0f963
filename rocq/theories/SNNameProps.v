(** Theorems about the predefined supernova models. *)
From Coq Require Import String Bool List QArith Arith Lia Lqa.
From Verif Require Import PyBase SNNameModel.
Import ListNotations.
Open Scope string_scope.
Open Scope list_scope.

(** ** Specification: the 28 models, written out independently *)
Definition digit (n : nat) : string := nth n ["0"; "1"; "2"; "3"; "4"; "5"; "6"; "7"; "8"; "9"] "?".
Definition label (i : nat) : string := ("SN_MODEL_v2_" ++ digit (i / 10) ++ digit (i mod 10))%string.
(** What the compared options of model i are. *)
Definition expected (i : nat) : list (string * value) :=
  let '(mechanism, engine) := nth ((i - 1) / 4) [
    ("Fryer+12-delayed", ""); ("Fryer+12-rapid", ""); ("Sukhbold+16-engine", "N20"); ("Patton&Sukhbold20-engine", "N20");
    ("Sukhbold+16-engine", "W20"); ("Patton&Sukhbold20-engine", "W20"); ("Maltsev+25-engine", "M16")] ("", "") in
  [("mechanism", VStr mechanism); ("engine", VStr engine); ("PISN", VStr "Hendriks+23"); ("PISN_CO_shift", VNum 0);
   ("PPI_extra_mass_loss", VNum (if Nat.odd ((i - 1) / 2) then 0 else -20)); ("conserve_hydrogen_envelope", VBool (Nat.even i));
   ("conserve_hydrogen_PPI", VBool false); ("max_neutrino_mass_loss", VNum (1 # 2)); ("max_NS_mass", VNum (5 # 2));
   ("allow_spin_None", VBool false); ("approx_at_he_depletion", VBool false)].
(** Equality of option values: texts equal, numbers equal, False and True being 0 and 1. *)
Definition same (a b : value) : Prop :=
  match a, b with
  | VStr s, VStr t => s = t
  | VNone, VNone => True
  | VNum x, VNum y => x == y
  | VBool b, VNum x | VNum x, VBool b => x == if b then 1 else 0
  | VBool a, VBool b => a = b
  | _, _ => False
  end%Q.
Definition agrees (input : dict) (i : nat) : Prop :=
  forall k v, In (k, v) (expected i) -> exists w, get input k = Some w /\ same w v.

(** ** Helper lemmas *)
Lemma veqb_same a b : veqb a b = true <-> same a b.
Proof.
  destruct a as [s|x|[|]| |], b as [t|y|[|]| |]; cbn; try (split; [discriminate|tauto]); try (split; [discriminate|discriminate]); try tauto.
  all: try (rewrite String.eqb_eq; tauto); try (rewrite Qeq_bool_iff; split; intro H; [exact H || (symmetry; exact H)|exact H || (symmetry; exact H)]).
Qed.
Lemma veqb_meet w a b : veqb w a = true -> veqb w b = true -> veqb a b = true.
Proof.
  intros A B. destruct w as [s|x|c| |], a as [t|y|d| |], b as [u|z|e| |]; cbn in *; try discriminate; try reflexivity;
    try (apply String.eqb_eq in A; apply String.eqb_eq in B; subst; apply String.eqb_refl);
    repeat match goal with b : bool |- _ => destruct b end; cbn in *; try discriminate; try reflexivity;
    try apply Qeq_bool_iff in A; try apply Qeq_bool_iff in B; first [apply Qeq_bool_iff; lra | exfalso; lra | idtac].
Qed.

Lemma matches_expected input i : In i (seq 1 28) -> forall m, dget String.eqb SN_MODELS (label i) = Some m ->
  (matches input m = true <-> agrees input i).
Proof.
  assert (A : forall m, forallb (key_ok input m) DEFAULT_SN_MODEL =
     forallb (fun kv => match get input (fst kv) with Some w => veqb w (snd kv) | None => false end)
        (map (fun kv => (fst kv, match get m (fst kv) with Some v => v | None => snd kv end))
           (filter (fun kv => negb (contains "use_" (fst kv) || String.eqb (fst kv) "ECSN")) DEFAULT_SN_MODEL))).
  { intros m. induction DEFAULT_SN_MODEL as [|[k d] l IH]; [reflexivity|].
    cbn [forallb filter fst snd]. unfold key_ok at 1. destruct (contains "use_" k || String.eqb k "ECSN"); cbn [negb]; [exact IH|].
    cbn [map forallb fst snd]. rewrite IH. reflexivity. }
  intros I m G. unfold matches, agrees. rewrite (A m).
  assert (E : map (fun kv => (fst kv, match get m (fst kv) with Some v => v | None => snd kv end))
           (filter (fun kv => negb (contains "use_" (fst kv) || String.eqb (fst kv) "ECSN")) DEFAULT_SN_MODEL) = expected i).
  { clear A. cbn [seq In] in I. repeat (destruct I as [<-|I]; [vm_compute in G; injection G as <-; vm_compute; reflexivity|]). destruct I. }
  rewrite E. clear. rewrite forallb_forall. split.
  - intros H k v J. specialize (H _ J). cbn in H. destruct (get input k) as [w|]; [|discriminate]. exists w. split; [reflexivity|]. apply veqb_same, H.
  - intros H [k v] J. cbn [fst snd]. destruct (H _ _ J) as (w & -> & S). apply veqb_same, S.
Qed.

Lemma apart i j : In i (seq 1 28) -> In j (seq 1 28) -> i <> j -> existsb (fun p => negb (veqb (snd (fst p)) (snd (snd p))) && String.eqb (fst (fst p)) (fst (snd p))) (combine (expected i) (expected j)) = true.
Proof.
  intros I J N.
  assert (F : forallb (fun i => forallb (fun j => Nat.eqb i j || existsb (fun p => negb (veqb (snd (fst p)) (snd (snd p))) && String.eqb (fst (fst p)) (fst (snd p))) (combine (expected i) (expected j))) (seq 1 28)) (seq 1 28) = true)
    by (vm_compute; reflexivity).
  rewrite forallb_forall in F. specialize (F _ I). rewrite forallb_forall in F. specialize (F _ J). cbv beta in F.
  destruct (Nat.eqb_spec i j); [contradiction|exact F].
Qed.
Lemma agrees_unique input i j : In i (seq 1 28) -> In j (seq 1 28) -> agrees input i -> agrees input j -> i = j.
Proof.
  intros I J A B. destruct (Nat.eq_dec i j) as [E|N]; [exact E|exfalso].
  pose proof (apart i j I J N) as X. apply existsb_exists in X. destruct X as ([[k v] [k' v']] & C & H).
  apply andb_true_iff in H. destruct H as [H K]. cbn in H, K. apply String.eqb_eq in K. subst k'.
  destruct (A k v (in_combine_l _ _ _ _ C)) as (w & Gw & S). destruct (B k v' (in_combine_r _ _ _ _ C)) as (w' & Gw' & S').
  assert (w' = w) by congruence. subst w'. apply veqb_same in S, S'. rewrite (veqb_meet w v v' S S') in H. discriminate.
Qed.
Lemma names : map fst SN_MODELS = map label (seq 1 28).
Proof. vm_compute. reflexivity. Qed.
Lemma in_models n m : In (n, m) SN_MODELS -> exists i, In i (seq 1 28) /\ n = label i /\ dget String.eqb SN_MODELS (label i) = Some m.
Proof.
  intro H.
  assert (F : Forall (fun nm => dget String.eqb SN_MODELS (fst nm) = Some (snd nm)) SN_MODELS).
  { unfold SN_MODELS at 2. repeat (apply Forall_cons; [vm_compute; reflexivity|]). apply Forall_nil. }
  rewrite Forall_forall in F. specialize (F _ H). cbn in F.
  assert (M : In n (map label (seq 1 28))) by (rewrite <- names; apply (in_map fst) in H; exact H).
  apply in_map_iff in M. destruct M as (i & <- & I). exists i. auto.
Qed.
Lemma label_model i : In i (seq 1 28) -> exists m, In (label i, m) SN_MODELS /\ dget String.eqb SN_MODELS (label i) = Some m.
Proof.
  intro I. assert (M : In (label i) (map fst SN_MODELS)) by (rewrite names; apply in_map, I).
  apply in_map_iff in M. destruct M as ([n m] & E & M). cbn in E. subst n. destruct (in_models _ _ M) as (j & J & E & G).
  rewrite <- E in G. exists m. auto.
Qed.

Lemma pick_some {A B} (p : A -> bool) (f : A -> B) l s n : fold_left (fun sel x => if p x then Some (f x) else sel) l s = Some n ->
  s = Some n \/ exists x, In x l /\ p x = true /\ f x = n.
Proof.
  revert s. induction l as [|x l IH]; cbn; intros s H; [left; exact H|].
  destruct (IH _ H) as [E|(y & I & P & F)]; [|right; exists y; auto].
  destruct (p x) eqn:E'; [|left; exact E]. right. exists x. injection E as E. auto.
Qed.
Lemma pick_none {A B} (p : A -> bool) (f : A -> B) l s : fold_left (fun sel x => if p x then Some (f x) else sel) l s = None ->
  s = None /\ forall x, In x l -> p x = false.
Proof.
  revert s. induction l as [|x l IH]; cbn; intros s H; [split; [exact H|intros ? []]|].
  destruct (IH _ H) as [E F]. destruct (p x) eqn:P; [discriminate|]. split; [exact E|]. intros y [<-|I]; auto.
Qed.

(** ** C86 *)
(** A model is selected exactly when all eleven compared options are present and have its values. *)
Theorem C86_choice : forall input n,
  get_SN_MODEL_NAME input = Some n <-> exists i, (1 <= i <= 28)%nat /\ n = label i /\ agrees input i.
Proof.
  assert (R : forall i, In i (seq 1 28) <-> (1 <= i <= 28)%nat) by (intro i; rewrite in_seq; lia).
  intros input n. split.
  - intro H. apply pick_some in H. destruct H as [H|([n' m] & I & P & F)]; [discriminate|]. cbn [fst snd] in *. subst n'.
    destruct (in_models _ _ I) as (i & J & E & G). exists i. split; [apply R, J|]. split; [exact E|]. apply (matches_expected input i J m G), P.
  - intros (i & J & -> & A). apply R in J. destruct (get_SN_MODEL_NAME input) as [n|] eqn:E.
    + apply pick_some in E. destruct E as [E|([n' m] & I & P & F)]; [discriminate|]. cbn [fst snd] in *. subst n'.
      destruct (in_models _ _ I) as (j & J' & -> & G). apply (matches_expected input j J' m G) in P.
      rewrite (agrees_unique input j i J' J P A). reflexivity.
    + apply pick_none in E. destruct E as [_ E]. destruct (label_model i J) as (m & I & G). specialize (E _ I). cbn [snd] in E.
      apply (matches_expected input i J m G) in A. congruence.
Qed.

(** The options use_interp_values, use_profiles, use_core_masses and ECSN, and anything else in the dictionary, have no influence. *)
Theorem C86_ignored : forall a b,
  (forall k, In k ["mechanism"; "engine"; "PISN"; "PISN_CO_shift"; "PPI_extra_mass_loss"; "conserve_hydrogen_envelope"; "conserve_hydrogen_PPI";
                   "max_neutrino_mass_loss"; "max_NS_mass"; "allow_spin_None"; "approx_at_he_depletion"] -> get a k = get b k) ->
  get_SN_MODEL_NAME a = get_SN_MODEL_NAME b.
Proof.
  assert (H : forall a b n, (forall k, In k ["mechanism"; "engine"; "PISN"; "PISN_CO_shift"; "PPI_extra_mass_loss"; "conserve_hydrogen_envelope"; "conserve_hydrogen_PPI";
                   "max_neutrino_mass_loss"; "max_NS_mass"; "allow_spin_None"; "approx_at_he_depletion"] -> get a k = get b k) ->
     get_SN_MODEL_NAME a = Some n -> get_SN_MODEL_NAME b = Some n).
  { intros a b n E H. apply C86_choice in H. destruct H as (i & I & L & A). apply C86_choice. exists i. split; [exact I|]. split; [exact L|].
    intros k v J. destruct (A k v J) as (w & G & S). exists w. split; [|exact S]. rewrite <- G. symmetry. apply E.
    apply (in_map fst) in J. unfold expected in J. destruct (nth ((i - 1) / 4) _ _). exact J. }
  intros a b E. destruct (get_SN_MODEL_NAME a) as [n|] eqn:A.
  - symmetry. apply (H a b n E A).
  - destruct (get_SN_MODEL_NAME b) as [n|] eqn:B; [|reflexivity].
    rewrite (H b a n (fun k K => eq_sym (E k K)) B) in A. discriminate.
Qed.

(** The options of each of the 28 models lead back to its name; those of an unknown name are the default ones, which lead to the first model. *)
Theorem C86_round_trip : forall i, (1 <= i <= 28)%nat -> get_SN_MODEL_NAME (get_SN_MODEL (label i)) = Some (label i).
Proof.
  intros i I. assert (J : In i (seq 1 28)) by (apply in_seq; lia). clear I.
  assert (F : forallb (fun i => match get_SN_MODEL_NAME (get_SN_MODEL (label i)) with Some n => String.eqb n (label i) | None => false end) (seq 1 28) = true)
    by (vm_compute; reflexivity).
  rewrite forallb_forall in F. specialize (F i J). cbv beta in F. destruct (get_SN_MODEL_NAME _) as [n|]; [|discriminate].
  apply String.eqb_eq in F. congruence.
Qed.
Theorem C86_unknown : forall n, (forall i, (1 <= i <= 28)%nat -> n <> label i) ->
  get_SN_MODEL_NAME (get_SN_MODEL n) = Some "SN_MODEL_v2_01" /\ get (get_SN_MODEL n) "use_interp_values" = Some (VBool true)
  /\ get (get_SN_MODEL "SN_MODEL_v2_01") "use_interp_values" = Some (VBool false).
Proof.
  intros n H. unfold get_SN_MODEL. destruct (dget String.eqb SN_MODELS n) as [m|] eqn:G.
  - exfalso. assert (I : In (n, m) SN_MODELS).
    { clear H. revert G. induction SN_MODELS as [|[k v] l IH]; cbn; [discriminate|]. destruct (String.eqb_spec n k) as [-> |N]; intro G.
      - injection G as ->. left. reflexivity.
      - right. apply IH, G. }
    destruct (in_models _ _ I) as (i & J & E & _). apply (H i); [|exact E]. apply in_seq in J. lia.
  - split; [vm_compute; reflexivity|]. split; vm_compute; reflexivity.
Qed.

(** An ini file accepted by the validity check runs with the model it was checked for (or without interpolated values). *)
Lemma get_map (g : string -> value -> value) (l : dict) k : get (map (fun kv => (fst kv, g (fst kv) (snd kv))) l) k = match get l k with Some v => Some (g k v) | None => None end.
Proof.
  unfold get. induction l as [|[x v] l IH]; cbn; [reflexivity|]. destruct (String.eqb_spec k x) as [-> |N]; [reflexivity|exact IH].
Qed.
Theorem C86_valid : forall d, check_SN_MODEL_validity d = Ok true ->
  (exists v, get d "use_interp_values" = Some v /\ same v (VBool false)) \/
  exists i, (1 <= i <= 28)%nat /\ get_SN_MODEL_NAME d = Some (label i) /\ get_SN_MODEL_NAME (step_model d) = Some (label i).
Proof.
  intros d H. unfold check_SN_MODEL_validity in H. destruct (get d "use_interp_values") as [v|]; [|discriminate].
  destruct (veqb v (VBool false)) eqn:V; [left; exists v; split; [reflexivity|]; apply veqb_same, V|right].
  destruct (get_SN_MODEL_NAME d) as [n|] eqn:E; [|discriminate]. pose proof E as E0. apply C86_choice in E. destruct E as (i & I & -> & A).
  exists i. split; [exact I|]. split; [reflexivity|]. apply C86_choice. exists i. split; [exact I|]. split; [reflexivity|].
  intros k v' J. destruct (A k v' J) as (w & G & S). exists w. split; [|exact S].
  unfold step_model. set (g := fun (k : string) (dv : value) => let v := match get d k with Some v => v | None => dv end in
     if String.eqb k "max_neutrino_mass_loss" then match v with VNone => VNum 0 | _ => v end else v).
  change (get (map (fun kv => (fst kv, g (fst kv) (snd kv))) DEFAULT_SN_MODEL) k = Some w). rewrite get_map.
  assert (K : In k ["mechanism"; "engine"; "PISN"; "PISN_CO_shift"; "PPI_extra_mass_loss"; "conserve_hydrogen_envelope"; "conserve_hydrogen_PPI";
                   "max_neutrino_mass_loss"; "max_NS_mass"; "allow_spin_None"; "approx_at_he_depletion"])
    by (apply (in_map fst) in J; unfold expected in J; destruct (nth ((i - 1) / 4) _ _); exact J).
  assert (D : exists dv, get DEFAULT_SN_MODEL k = Some dv).
  { clear -K. cbn [In] in K. repeat (destruct K as [<-|K]; [eexists; vm_compute; reflexivity|]). destruct K. }
  destruct D as (dv & ->). unfold g. rewrite G. cbv zeta. destruct (String.eqb_spec k "max_neutrino_mass_loss") as [-> |N]; [|reflexivity].
  destruct w; try reflexivity. exfalso. apply (in_map id) in J. rewrite map_id in J. unfold expected in J. destruct (nth ((i - 1) / 4) _ _) as [a b].
  cbn [In] in J. repeat (destruct J as [J|J]; [first [discriminate J | injection J as <-; exact S]|]). destruct J.
Qed.
(** The converse fails: a file that leaves an option at its default is refused although the step would find a model; one without use_interp_values
    is a KeyError. *)
Theorem C86_default_refuted : exists d, check_SN_MODEL_validity d = Ok false /\ get_SN_MODEL_NAME (step_model d) = Some "SN_MODEL_v2_05".
Proof. exists [("use_interp_values", VBool true); ("mechanism", VStr "Fryer+12-rapid")]. split; vm_compute; reflexivity. Qed.
Theorem C86_missing_refuted : exists d, check_SN_MODEL_validity d = Raise KeyError /\ get_SN_MODEL_NAME (step_model d) = Some "SN_MODEL_v2_05".
Proof. exists [("mechanism", VStr "Fryer+12-rapid")]. split; vm_compute; reflexivity. Qed.

(** ** Examples *)
Example C86_choice_ex : agrees (step_model [("mechanism", VStr "Maltsev+25-engine"); ("engine", VStr "M16"); ("PPI_extra_mass_loss", VNum 0); ("ECSN", VStr "Podsiadlowski+04")]) 27.
Proof. intros k v H. cbn [expected In] in H. vm_compute in H. repeat (destruct H as [E|H]; [injection E as <- <-; eexists; split; [vm_compute; reflexivity|cbn; reflexivity]|]). destruct H. Qed.
Example C86_unknown_ex : forall i, (1 <= i <= 28)%nat -> "MODEL01" <> label i.
Proof. intros i _ E. discriminate E. Qed.
Example C86_valid_ex : check_SN_MODEL_validity (step_model [("conserve_hydrogen_envelope", VNum 1)]) = Ok true
  /\ get_SN_MODEL_NAME (step_model [("conserve_hydrogen_envelope", VNum 1)]) = Some "SN_MODEL_v2_02".
Proof. split; vm_compute; reflexivity. Qed.
Example C86_ignored_ex : get_SN_MODEL_NAME (step_model [("ECSN", VNone)]) = get_SN_MODEL_NAME (step_model []).
Proof. apply C86_ignored. intros k H. cbn [In] in H. repeat (destruct H as [<-|H]; [vm_compute; reflexivity|]). destruct H. Qed.

Print Assumptions C86_choice.
Print Assumptions C86_ignored.
Print Assumptions C86_round_trip.
Print Assumptions C86_unknown.
Print Assumptions C86_valid.
Print Assumptions C86_default_refuted.
Print Assumptions C86_missing_refuted.
