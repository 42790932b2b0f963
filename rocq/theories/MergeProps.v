(** C71: the star that two merging stars become. *)
From Coq Require Import String List Bool ZArith QArith Lqa Lia.
From Verif Require Import PyBase PyNum PyStr MTModel MergeModel.
Import ListNotations.
Open Scope string_scope.
Open Scope list_scope.

(** ** Specification *)
Definition MAIN := [ "H-rich_Core_H_burning" ].
Definition POST := [ "H-rich_Core_He_burning"; "H-rich_Shell_H_burning"; "H-rich_Core_He_depleted"; "H-rich_Shell_He_burning"; "H-rich_Core_C_burning";
  "H-rich_Core_C_depleted"; "H-rich_non_burning"; "accreted_He_Core_H_burning"; "accreted_He_Shell_H_burning"; "accreted_He_non_burning" ].
Definition HE_MAIN := [ "stripped_He_Core_He_burning" ].
Definition HE_POST := [ "accreted_He_Core_He_burning"; "stripped_He_Core_He_depleted"; "stripped_He_Core_C_depleted"; "stripped_He_non_burning" ].
(** The kinds of mergers: base star first. *)
Inductive kind := MainMain | PostMain | MainPost | PostPost | PostHeMain | HeMainPost | PostHe | HePost | HeHe | StarWD | StarCompact.
Inductive kind_of : string -> string -> kind -> Prop :=
| k_mm s t : In s MAIN -> In t MAIN -> kind_of s t MainMain
| k_pm s t : In s POST -> In t MAIN -> kind_of s t PostMain
| k_mp s t : In s MAIN -> In t POST -> kind_of s t MainPost
| k_pp s t : In s POST -> In t POST -> kind_of s t PostPost
| k_ph s t : In s POST -> In t HE_MAIN -> kind_of s t PostHeMain
| k_hp s t : In s HE_MAIN -> In t POST -> kind_of s t HeMainPost
| k_pq s t : In s POST -> In t HE_POST -> kind_of s t PostHe
| k_qp s t : In s HE_POST -> In t POST -> kind_of s t HePost
| k_hh s t : In s (HE_MAIN ++ HE_POST) -> In t (HE_MAIN ++ HE_POST) -> kind_of s t HeHe
| k_wd s : In s (MAIN ++ POST ++ HE_MAIN ++ HE_POST ++ [ "massless_remnant" ]) -> kind_of s "WD" StarWD
| k_co s t : In s (MAIN ++ POST ++ HE_MAIN ++ HE_POST ++ [ "massless_remnant" ]) -> In t [ "NS"; "BH" ] -> kind_of s t StarCompact.
(** The star that gives the merged star its remaining attributes: the more evolved one. *)
Definition survivor (k : kind) (B C : star) : star := match k with MainPost | HeMainPost | HePost => C | _ => B end.
Definition swallowed (k : kind) (B C : star) : star := match k with MainPost | HeMainPost | HePost => B | _ => C end.

Definition CENTER := [ "center_h1"; "center_he4"; "center_c12"; "center_n14"; "center_o16" ].
Definition SURFACE := [ "surface_h1"; "surface_he4"; "surface_c12"; "surface_n14"; "surface_o16" ].
Definition MASS := [ "mass"; "he_core_mass"; "c_core_mass"; "o_core_mass"; "co_core_mass" ].
Definition SPIN := "surf_avg_omega_div_omega_crit".
Definition ERASED := [ "log_R"; "log_L"; "lg_mdot"; "lg_system_mdot"; "lg_wind_mdot"; "log_LH"; "log_LHe"; "log_LZ"; "log_Lnuc"; "c12_c12"; "surf_avg_omega";
  "total_moment_of_inertia"; "log_total_angular_momentum"; "spin"; "conv_env_top_mass"; "conv_env_bot_mass"; "conv_env_top_radius"; "conv_env_bot_radius";
  "conv_env_turnover_time_g"; "conv_env_turnover_time_l_b"; "conv_env_turnover_time_l_t"; "mass_conv_reg_fortides"; "thickness_conv_reg_fortides";
  "radius_conv_reg_fortides"; "lambda_CE_1cent"; "lambda_CE_10cent"; "lambda_CE_30cent"; "lambda_CE_pure_He_star_10cent"; "profile" ].
Definition OTHERS := [ "metallicity"; "he_core_radius"; "c_core_radius"; "o_core_radius"; "co_core_radius"; "envelope_binding_energy"; "total_mass_h1"; "total_mass_he4" ].

Definition zero (x : pnum) : Prop := exists q, x = Some (Fin q) /\ (q == 0)%Q.
Definition positive (x : pnum) : Prop := (exists q, x = Some (Fin q) /\ (0 < q)%Q) \/ x = Some PInf.

Section Spec.
  Context (fadd fsub fmul fdiv : num -> num -> num) (round10 : num -> num) (rel : num) (critical_rot kept_mass : num).
  (** The average of an attribute with the given weights, NaN unless all four values are finite and the total weight is not zero. *)
  Definition weighable (B C : star) (wB wC : pnum) (n : string) (a b x y : Q) : Prop :=
    attr B n = Some (Fin a) /\ attr C n = Some (Fin b) /\ wB = Some (Fin x) /\ wC = Some (Fin y) /\ ~ zero (Some (fadd (Fin x) (Fin y))).
  Definition averaged (B C : star) (wB wC : pnum) (n : string) (v : pnum) : Prop :=
    (exists a b x y, weighable B C wB wC n a b x y /\ v = Some (fdiv (fadd (fmul (Fin a) (Fin x)) (fmul (Fin b) (Fin y))) (fadd (Fin x) (Fin y)))) \/
    ((~ exists a b x y, weighable B C wB wC n a b x y) /\ v = Some NaN).
  Definition sum (f : num -> num -> num) (x y v : pnum) : Prop := exists a b, x = Some a /\ y = Some b /\ v = Some (f a b).
  (** The mass between two boundaries. *)
  Definition layer (s : star) (outer inner : string) (w : pnum) : Prop := sum fsub (attr s outer) (attr s inner) w.

  Definition masses (k : kind) (B C m : star) : Prop :=
    match k with
    | MainMain => (exists t, sum fadd (attr B "mass") (attr C "mass") (Some t) /\ attr m "mass" = Some (fmul t kept_mass)) /\
                  forall n, In n MASS -> n <> "mass" -> attr m n = attr B n
    | PostMain => sum fadd (attr B "mass") (attr C "mass") (attr m "mass") /\ forall n, In n MASS -> n <> "mass" -> attr m n = attr B n
    | MainPost => sum fadd (attr B "mass") (attr C "mass") (attr m "mass") /\ forall n, In n MASS -> n <> "mass" -> attr m n = attr C n
    | StarWD => forall n, In n MASS -> sum fadd (attr B n) (attr C "mass") (attr m n)
    | _ => forall n, In n MASS -> sum fadd (attr B n) (attr C n) (attr m n)
    end.
  Definition surfaces (k : kind) (B C m : star) : Prop :=
    match k with
    | MainMain => forall n, In n SURFACE -> averaged B C (attr B "mass") (attr C "mass") n (attr m n)
    | PostMain => exists w, layer B "mass" "he_core_mass" w /\ forall n, In n SURFACE -> averaged B C w (attr C "mass") n (attr m n)
    | MainPost => exists w, layer C "mass" "he_core_mass" w /\ forall n, In n SURFACE -> averaged B C (attr B "mass") w n (attr m n)
    | PostPost => exists w w', layer B "mass" "he_core_mass" w /\ layer C "mass" "he_core_mass" w' /\ forall n, In n SURFACE -> averaged B C w w' n (attr m n)
    (** the first weight is the helium layer of the merged star *)
    | HeHe => exists w w', layer m "he_core_mass" "co_core_mass" w /\ layer C "he_core_mass" "co_core_mass" w' /\
              forall n, In n SURFACE -> averaged B C w w' n (attr m n)
    | _ => forall n, In n SURFACE -> attr m n = attr (survivor k B C) n
    end.
  (** Abundances at the center, the carbon in the core and the central plasma parameter. *)
  Definition mixed_centers (B C : star) (w : string) (m : star) : Prop :=
    (forall n, In n (CENTER ++ [ "avg_c_in_c_core" ]) -> averaged B C (attr B w) (attr C w) n (attr m n)) /\ attr m "center_gamma" = Some NaN.
  Definition centers_of (s m : star) : Prop := forall n, In n (CENTER ++ [ "avg_c_in_c_core"; "center_gamma" ]) -> attr m n = attr s n.
  Definition merged_cores (S B C m : star) : Prop :=
    let b := attr B "co_core_mass" in let c := attr C "co_core_mass" in
    (zero b /\ zero c -> mixed_centers B C "he_core_mass" m) /\
    (positive b /\ zero c -> centers_of B m) /\ (zero b /\ positive c -> centers_of C m) /\
    (positive b /\ positive c -> mixed_centers B C "co_core_mass" m) /\
    (~ (zero b \/ positive b) \/ ~ (zero c \/ positive c) -> centers_of S m).
  Definition centers (k : kind) (B C m : star) : Prop :=
    match k with
    | MainMain => (forall n, In n CENTER -> averaged B C (attr B "mass") (attr C "mass") n (attr m n)) /\
                  attr m "avg_c_in_c_core" = Some NaN /\ attr m "center_gamma" = Some NaN
    | PostMain | MainPost => centers_of (survivor k B C) m
    | PostHeMain | HeMainPost =>
        (zero (attr B "co_core_mass") /\ zero (attr C "co_core_mass") -> mixed_centers B C "he_core_mass" m) /\
        (~ (zero (attr B "co_core_mass") /\ zero (attr C "co_core_mass")) -> centers_of (survivor k B C) m)
    | StarWD =>
        (attr C "co_core_mass" <> None /\ zero (attr B "co_core_mass") -> centers_of C m) /\
        (attr C "co_core_mass" <> None /\ positive (attr B "co_core_mass") -> mixed_centers B C "co_core_mass" m) /\
        (attr C "co_core_mass" = None \/ ~ (zero (attr B "co_core_mass") \/ positive (attr B "co_core_mass")) -> centers_of B m)
    | _ => merged_cores (survivor k B C) B C m
    end.
  Definition rest (k : kind) (B C m : star) : Prop :=
    attr m SPIN = Some critical_rot /\ (forall n, In n ERASED -> attr m n = Some NaN) /\
    (forall n, In n OTHERS -> n <> "envelope_binding_energy" -> attr m n = attr (survivor k B C) n) /\
    attr m "envelope_binding_energy" = (match k with MainMain => Some NaN | _ => attr (survivor k B C) "envelope_binding_energy" end) /\
    (forall n, ~ In n (MASS ++ CENTER ++ SURFACE ++ SPIN :: ERASED ++ OTHERS ++ [ "avg_c_in_c_core"; "center_gamma" ]) -> attr m n = attr (survivor k B C) n).
  Definition remnant_of (s r : star) : Prop :=
    sstate r = "massless_remnant" /\ attr r "mass" = Some (Fin 0) /\
    forall n, n <> "mass" -> attr r n = (if in_dec string_dec n (MASS ++ CENTER ++ SURFACE ++ SPIN :: ERASED ++ OTHERS ++ [ "avg_c_in_c_core"; "center_gamma" ]) then Some NaN else attr s n).
End Spec.
(** States in which nothing burns. *)
Definition QUIET := "undetermined_evolutionary_state" ::
  [ "H-rich_non_burning"; "H-rich_Core_He_depleted"; "H-rich_Core_C_depleted"; "accreted_He_non_burning"; "accreted_He_Core_He_depleted";
    "accreted_He_Core_C_depleted"; "stripped_He_non_burning"; "stripped_He_Core_He_depleted"; "stripped_He_Core_C_depleted" ].

(** ** Lemmas *)
Lemma mem_iff k l : mem k l = true <-> In k l.
Proof. unfold mem. rewrite existsb_exists. split; [intros (x & I & E); apply String.eqb_eq in E; congruence|intros I; exists k; split; [exact I|apply String.eqb_refl]]. Qed.
Lemma mem_not k l : mem k l = false <-> ~ In k l.
Proof. rewrite <- mem_iff. destruct (mem k l); split; congruence. Qed.
Definition flip (d : side) : side := match d with Base => Comp | Comp => Base end.
Lemma attr_set s k v n : attr (setattr s k v) n = if String.eqb n k then v else attr s n.
Proof. reflexivity. Qed.
Lemma the_upd d f p : the d (upd d f p) = f (the d p).
Proof. destruct d; reflexivity. Qed.
Lemma flip_upd d f p : the (flip d) (upd d f p) = the (flip d) p.
Proof. destruct d; reflexivity. Qed.
Lemma for_each_spec d f : forall names p p', NoDup names ->
  (forall p k k' v, In k names -> In k' names -> k <> k' -> f (upd d (fun s => setattr s k' v) p) k = f p k) ->
  for_each d f names p = Ok p' ->
  the (flip d) p' = the (flip d) p /\ sstate (the d p') = sstate (the d p) /\
  (forall k, In k names -> f p k = Ok (attr (the d p') k)) /\ (forall k, ~ In k names -> attr (the d p') k = attr (the d p) k).
Proof.
  induction names as [|k names IH]; intros p p' ND ST H; cbn [for_each] in H.
  - assert (p = p') by congruence. subst. repeat split; auto. intros k [].
  - destruct (f p k) as [v|e] eqn:F; [|discriminate]. cbn [rbind] in H. inversion ND as [|? ? NI ND']; subst.
    destruct (IH _ _ ND' (fun p k0 k' v0 I I' N => ST p k0 k' v0 (or_intror I) (or_intror I') N) H) as (A & B & C & D). rewrite flip_upd in A. rewrite the_upd in B, D.
    split; [exact A|]. split; [exact B|]. split.
    + intros k0 [E|I].
      * subst k0. rewrite (D k NI), attr_set, String.eqb_refl. exact F.
      * rewrite <- (C k0 I). symmetry. apply ST; [right; exact I|left; reflexivity|congruence].
    + intros k0 NI0. rewrite (D k0); [|intros I; apply NI0; right; exact I]. rewrite attr_set. destruct (String.eqb_spec k0 k) as [-> |_]; [exfalso; apply NI0; left; reflexivity|reflexivity].
Qed.
Lemma for_each_ok d f : forall names p, NoDup names ->
  (forall p k k' v, In k names -> In k' names -> k <> k' -> f (upd d (fun s => setattr s k' v) p) k = f p k) ->
  (forall k, In k names -> exists v, f p k = Ok v) -> exists p', for_each d f names p = Ok p'.
Proof.
  induction names as [|k names IH]; intros p ND ST H; [exists p; reflexivity|]. cbn [for_each]. destruct (H k (or_introl eq_refl)) as [v F]. rewrite F. cbn [rbind].
  inversion ND as [|? ? NI ND']; subst. apply IH; [exact ND'|intros; apply ST; auto; right; assumption|].
  intros k0 I. rewrite ST; [apply H; right; exact I|right; exact I|left; reflexivity|congruence].
Qed.
Lemma nan_spec s extra k : attr (apply_nan_attributes s extra) k =
  if mem k (filter (fun k => existsb (fun sub => py_in sub k) NAN_SUBSTRINGS || mem k extra || mem k NAN_KEYS) STARPROPERTIES) then Some NaN else attr s k.
Proof.
  unfold apply_nan_attributes. set (c := fun k => existsb (fun sub => py_in sub k) NAN_SUBSTRINGS || mem k extra || mem k NAN_KEYS).
  change (fun (s : star) (k : string) => if existsb (fun sub => py_in sub k) NAN_SUBSTRINGS || mem k extra || mem k NAN_KEYS then setattr s k (Some NaN) else s)
    with (fun (s : star) (k : string) => if c k then setattr s k (Some NaN) else s). clearbody c.
  generalize STARPROPERTIES as l. intros l. revert s. induction l as [|x l IH]; intros s; [reflexivity|]. cbn [fold_left filter]. rewrite IH. destruct (c x); [|reflexivity].
  unfold mem at 2. cbn [existsb]. fold (mem k (filter c l)). rewrite attr_set. destruct (mem k (filter c l)); [rewrite orb_true_r; reflexivity|]. rewrite orb_false_r. reflexivity.
Qed.
Lemma nan_state s extra : sstate (apply_nan_attributes s extra) = sstate s.
Proof.
  unfold apply_nan_attributes. generalize STARPROPERTIES as l. intros l. revert s. induction l as [|x l IH]; intros s; [reflexivity|]. cbn [fold_left]. rewrite IH. destruct (_ || _); reflexivity.
Qed.
Definition ERASED1 := filter (fun k => existsb (fun sub => py_in sub k) NAN_SUBSTRINGS || mem k [] || mem k NAN_KEYS) STARPROPERTIES.
Lemma erased_same : forall k, In k ERASED1 <-> In k (SPIN :: ERASED).
Proof.
  assert (H : forallb (fun k => mem k (SPIN :: ERASED)) ERASED1 && forallb (fun k => mem k ERASED1) (SPIN :: ERASED) = true) by (vm_compute; reflexivity).
  apply andb_true_iff in H as [A B]. rewrite forallb_forall in A, B. intros k. split; intros I; apply mem_iff; auto.
Qed.
Lemma erased_spec s n : attr (apply_nan_attributes s []) n = if mem n ERASED1 then Some NaN else attr s n.
Proof. exact (nan_spec s [] n). Qed.
Definition E3 := [ "center_gamma"; "avg_c_in_c_core"; "envelope_binding_energy" ].
Definition ERASED3 := filter (fun k => existsb (fun sub => py_in sub k) NAN_SUBSTRINGS || mem k E3 || mem k NAN_KEYS) STARPROPERTIES.
Lemma erased3_mem n : mem n ERASED3 = mem n (E3 ++ SPIN :: ERASED).
Proof.
  assert (Q : forallb (fun k => mem k (E3 ++ SPIN :: ERASED)) ERASED3 && forallb (fun k => mem k ERASED3) (E3 ++ SPIN :: ERASED) = true) by (vm_compute; reflexivity).
  apply andb_true_iff in Q as [Q1 Q2]. rewrite forallb_forall in Q1, Q2. destruct (mem n ERASED3) eqn:X, (mem n (E3 ++ SPIN :: ERASED)) eqn:Y; try reflexivity; exfalso.
  - apply mem_iff, Q1 in X. congruence.
  - apply mem_iff, Q2 in Y. congruence.
Qed.
Lemma erased3_spec s n : attr (apply_nan_attributes s E3) n = if mem n (E3 ++ SPIN :: ERASED) then Some NaN else attr s n.
Proof. rewrite <- erased3_mem. exact (nan_spec s E3 n). Qed.
Lemma is0_iff x : is0 x = true <-> zero x.
Proof.
  unfold is0, zero. split.
  - destruct x as [[| | |q]|]; try discriminate. intros H. exists q. split; [reflexivity|]. apply Qeq_bool_iff. exact H.
  - intros (q & -> & H). apply Qeq_bool_iff. exact H.
Qed.
Lemma is0_not x : is0 x = false <-> ~ zero x.
Proof. rewrite <- is0_iff. destruct (is0 x); split; congruence. Qed.
Lemma gt0_iff x : gt0 x = Ok true <-> positive x.
Proof.
  unfold gt0, p_gt, p_lt, positive. split.
  - destruct x as [[| | |q]|]; cbn; try discriminate; intros H; [right; reflexivity|]. left. exists q. split; [reflexivity|]. apply nlt_fin. cbn. congruence.
  - intros [(q & -> & H)| ->]; [|reflexivity]. f_equal. apply nlt_fin. exact H.
Qed.
Lemma gt0_not x : gt0 x = Ok false -> ~ positive x.
Proof. intros H P. apply gt0_iff in P. congruence. Qed.
Lemma zero_not_positive x : zero x -> ~ positive x.
Proof. intros (q & -> & Q) [(q' & E & P)|E]; [|discriminate]. injection E as <-. lra. Qed.

Section Proofs.
  Context (fadd fsub fmul fdiv : num -> num -> num).
  Notation averaged := (averaged fadd fmul fdiv).
  Notation mix := (mix fadd fsub fmul fdiv).
  Definition WEIGHTS := [ "mass"; "he_core_mass"; "co_core_mass"; "H-rich_envelope_mass"; "He-rich_envelope_mass" ].
  Definition wt (s : star) (w : string) : pnum :=
    match weight fsub s w with Ok m => (if String.eqb w "H-rich_envelope_mass" || String.eqb w "He-rich_envelope_mass" then Some m else attr s w) | Raise _ => None end.
  Lemma weight_wt s w m : weight fsub s w = Ok m -> or_nan (wt s w) = m.
  Proof using Type.
    unfold wt. intros H. rewrite H. unfold weight in H. destruct (String.eqb w "H-rich_envelope_mass") eqn:E1; [reflexivity|].
    destruct (String.eqb w "He-rich_envelope_mass") eqn:E2; [reflexivity|]. cbn [orb]. congruence.
  Qed.
  Lemma wt_H s m : weight fsub s "H-rich_envelope_mass" = Ok m -> layer fsub s "mass" "he_core_mass" (wt s "H-rich_envelope_mass").
  Proof using Type.
    unfold wt. intros H. rewrite H. unfold weight in H. cbn in H. unfold p_op in H. unfold layer, sum.
    destruct (attr s "mass") as [x|]; [|discriminate]. destruct (attr s "he_core_mass") as [y|]; [|discriminate]. cbn in H. exists x, y. cbn. repeat split. congruence.
  Qed.
  Lemma wt_He s m : weight fsub s "He-rich_envelope_mass" = Ok m -> layer fsub s "he_core_mass" "co_core_mass" (wt s "He-rich_envelope_mass").
  Proof using Type.
    unfold wt. intros H. rewrite H. unfold weight in H. cbn in H. unfold p_op in H. unfold layer, sum.
    destruct (attr s "he_core_mass") as [x|]; [|discriminate]. destruct (attr s "co_core_mass") as [y|]; [|discriminate]. cbn in H. exists x, y. cbn. repeat split. congruence.
  Qed.
  Lemma avg_spec p n w1 w2 v : mass_weighted_avg fadd fsub fmul fdiv p n w1 w2 = Ok v ->
    (exists m1 m2, weight fsub (base p) w1 = Ok m1 /\ weight fsub (comp p) w2 = Ok m2) /\ averaged (base p) (comp p) (wt (base p) w1) (wt (comp p) w2) n v.
  Proof using Type.
    unfold mass_weighted_avg. intros H. destruct (weight fsub (base p) w1) as [m1|] eqn:W1; [|discriminate]. cbn [rbind] in H.
    destruct (weight fsub (comp p) w2) as [m2|] eqn:W2; [|discriminate]. cbn [rbind] in H. split; [eauto|].
    apply weight_wt in W1, W2. destruct (wt (base p) w1) as [x1|], (wt (comp p) w2) as [x2|]; cbn in W1, W2; subst m1 m2.
    all: cbv zeta in H; unfold MergeProps.averaged, weighable.
    all: destruct (attr (base p) n) as [[| | |a]|], (attr (comp p) n) as [[| | |b]|]; cbn [or_nan isfinite andb negb] in H;
      try (right; split; [intros (? & ? & ? & ? & ? & ? & ? & ? & ?); congruence|congruence]).
    2: destruct x1; cbn [isfinite andb negb] in H; right; (split; [intros (? & ? & ? & ? & ? & ? & ? & ? & ?); congruence|congruence]).
    destruct x1 as [| | |x], x2 as [| | |y]; cbn [or_nan isfinite andb negb] in H; try (right; split; [intros (? & ? & ? & ? & ? & ? & ? & ? & ?); congruence|congruence]).
    destruct (is0 (Some (fadd (Fin x) (Fin y)))) eqn:D.
    - right. apply is0_iff in D. split; [|congruence]. intros (? & ? & ? & ? & _ & _ & E1 & E2 & N). injection E1 as <-. injection E2 as <-. contradiction.
    - left. exists a, b, x, y. apply is0_not in D. split; [auto|congruence].
  Qed.
  Lemma weight_set s w k v : In w WEIGHTS -> ~ In k [ "mass"; "he_core_mass"; "co_core_mass" ] -> weight fsub (setattr s k v) w = weight fsub s w.
  Proof using Type.
    intros I N. assert (A : forall x, In x [ "mass"; "he_core_mass"; "co_core_mass" ] -> attr (setattr s k v) x = attr s x).
    { intros x X. rewrite attr_set. destruct (String.eqb_spec x k) as [-> |_]; [contradiction|reflexivity]. }
    unfold weight. cbn in I. destruct I as [<-|[<-|[<-|[<-|[<-|[]]]]]]; cbn [String.eqb Ascii.eqb Bool.eqb]; rewrite ?A by (cbn; auto 6); reflexivity.
  Qed.
  Lemma mix_stable d names w1 w2 : (forall k, In k names -> ~ In k [ "mass"; "he_core_mass"; "co_core_mass" ]) -> In w1 WEIGHTS -> In w2 WEIGHTS ->
    forall p k k' v, In k names -> In k' names -> k <> k' ->
      mass_weighted_avg fadd fsub fmul fdiv (upd d (fun s => setattr s k' v) p) k w1 w2 = mass_weighted_avg fadd fsub fmul fdiv p k w1 w2.
  Proof using Type.
    intros N I1 I2 p k k' v I I' NE. assert (E : String.eqb k k' = false) by (apply String.eqb_neq; exact NE).
    unfold mass_weighted_avg. destruct d; cbn [upd base comp]; rewrite attr_set, E, weight_set; auto.
  Qed.
  Lemma mix_spec d names w1 w2 p p' : NoDup names -> names <> [] -> (forall k, In k names -> ~ In k [ "mass"; "he_core_mass"; "co_core_mass" ]) -> In w1 WEIGHTS -> In w2 WEIGHTS ->
    mix d names w1 w2 p = Ok p' ->
    the (flip d) p' = the (flip d) p /\ sstate (the d p') = sstate (the d p) /\
    (exists m1 m2, weight fsub (base p) w1 = Ok m1 /\ weight fsub (comp p) w2 = Ok m2) /\
    (forall k, In k names -> averaged (base p) (comp p) (wt (base p) w1) (wt (comp p) w2) k (attr (the d p') k)) /\
    (forall k, ~ In k names -> attr (the d p') k = attr (the d p) k).
  Proof using Type.
    intros ND NE N I1 I2 H. destruct (for_each_spec d _ names p p' ND (mix_stable d names w1 w2 N I1 I2) H) as (A & B & C & D).
    split; [exact A|]. split; [exact B|]. split; [|split; [|exact D]].
    - destruct names as [|k names]; [congruence|]. apply (avg_spec p k w1 w2 _ (C k (or_introl eq_refl))).
    - intros k I. apply avg_spec, C, I.
  Qed.
  Definition CORE := CENTER ++ [ "avg_c_in_c_core" ].
  Lemma nodup_b l : (if list_eq_dec string_dec (nodup string_dec l) l then true else false) = true -> NoDup l.
  Proof using Type. destruct (list_eq_dec string_dec (nodup string_dec l) l) as [E|]; [|discriminate]. intros _. rewrite <- E. apply NoDup_nodup. Qed.
  Lemma apart_b l l' : forallb (fun k => negb (mem k l')) l = true -> forall k, In k l -> ~ In k l'.
  Proof using Type. intros H k I. rewrite forallb_forall in H. specialize (H k I). apply negb_true_iff, mem_not in H. exact H. Qed.
  Lemma mixed_transfer B C w m m' : (forall n, In n (CORE ++ [ "center_gamma" ]) -> attr m' n = attr m n) ->
    mixed_centers fadd fmul fdiv B C w m -> mixed_centers fadd fmul fdiv B C w m'.
  Proof using Type.
    intros E [A G]. split; [|rewrite E; [exact G|cbn; auto 12]]. intros n I. rewrite E; [apply A; exact I|]. apply in_or_app. left. exact I.
  Qed.
  Lemma centers_transfer s m m' : (forall n, In n (CORE ++ [ "center_gamma" ]) -> attr m' n = attr m n) -> centers_of s m -> centers_of s m'.
  Proof using Type. intros E A n I. rewrite E; [apply A; exact I|]. unfold CORE. rewrite <- app_assoc. exact I. Qed.
  (** What an operation on the cores leaves alone. *)
  Definition only_cores (d : side) (p p' : pair) : Prop :=
    the (flip d) p' = the (flip d) p /\ sstate (the d p') = sstate (the d p) /\ forall k, ~ In k (CORE ++ [ "center_gamma" ]) -> attr (the d p') k = attr (the d p) k.
  Lemma mixing d w p p' : In w WEIGHTS -> weight fsub (base p) w = Ok (or_nan (attr (base p) w)) -> weight fsub (comp p) w = Ok (or_nan (attr (comp p) w)) ->
    wt (base p) w = attr (base p) w -> wt (comp p) w = attr (comp p) w ->
    r_pure (gamma_nan d) (mix d CENTERS_C w w p) = Ok p' -> only_cores d p p' /\ mixed_centers fadd fmul fdiv (base p) (comp p) w (the d p').
  Proof using Type.
    intros I _ _ E1 E2 H. unfold r_pure in H. destruct (mix d CENTERS_C w w p) as [q|] eqn:M; [|discriminate]. cbn [rbind] in H. assert (p' = gamma_nan d q) by congruence. subst p'.
    destruct (mix_spec d CENTERS_C w w p q) as (A & B & _ & C & D); auto; [apply nodup_b; vm_compute; reflexivity|discriminate|apply apart_b; vm_compute; reflexivity|].
    rewrite E1, E2 in C. unfold gamma_nan. split.
    - unfold only_cores. rewrite flip_upd, the_upd. split; [exact A|]. split; [exact B|]. intros k N. rewrite attr_set. destruct (String.eqb_spec k "center_gamma") as [-> |_].
      + exfalso. apply N. cbn. tauto.
      + apply D. intros J. apply N. apply in_or_app. left. exact J.
    - rewrite the_upd. split; [|reflexivity]. intros n J. rewrite attr_set. destruct (String.eqb_spec n "center_gamma") as [-> |_].
      + exfalso. revert J. apply mem_not. reflexivity.
      + apply C. exact J.
  Qed.
  Lemma copying src d p p' : src = flip d -> r_pure (gamma_from src d) (copy_from src d CENTERS_C p) = Ok p' -> only_cores d p p' /\ centers_of (the src p) (the d p').
  Proof using Type.
    intros -> H. unfold r_pure in H. destruct (copy_from (flip d) d CENTERS_C p) as [q|] eqn:M; [|discriminate]. cbn [rbind] in H. assert (p' = gamma_from (flip d) d q) by congruence. subst p'.
    destruct (for_each_spec d (fun p k => Ok (attr (the (flip d) p) k)) CENTERS_C p q) with (3 := M) as (A & B & C & D); [apply nodup_b; vm_compute; reflexivity|intros; rewrite flip_upd; reflexivity|].
    unfold gamma_from. split.
    - unfold only_cores. rewrite flip_upd, the_upd. split; [exact A|]. split; [exact B|]. intros k N. rewrite attr_set. destruct (String.eqb_spec k "center_gamma") as [-> |_].
      + exfalso. apply N. cbn. tauto.
      + apply D. intros J. apply N. apply in_or_app. left. exact J.
    - rewrite the_upd. intros n J. rewrite attr_set, A. destruct (String.eqb_spec n "center_gamma") as [-> |NE]; [reflexivity|].
      assert (J' : In n CENTERS_C) by (unfold CENTER in J; cbn in J |- *; intuition congruence). specialize (C n J'). congruence.
  Qed.
  Lemma only_refl d p : only_cores d p p.
  Proof using Type. repeat split. Qed.
  Lemma self_centers d p : centers_of (the d p) (the d p).
  Proof using Type. intros n _. reflexivity. Qed.
  Lemma cores_spec d p p' : mix_cores fadd fsub fmul fdiv d p = Ok p' ->
    only_cores d p p' /\ merged_cores fadd fmul fdiv (the d p) (base p) (comp p) (the d p').
  Proof using Type.
    unfold mix_cores, merged_cores. cbv zeta. set (b := attr (base p) "co_core_mass"). set (c := attr (comp p) "co_core_mass").
    destruct (is0 b) eqn:B0, (is0 c) eqn:C0; cbn [andb].
    - apply is0_iff in B0, C0. intros H. destruct (mixing d "he_core_mass" p p') as [O M]; [cbn; auto 12|reflexivity|reflexivity|reflexivity|reflexivity|exact H|].
      split; [exact O|]. pose proof (zero_not_positive _ B0). pose proof (zero_not_positive _ C0). repeat split; try tauto; apply M.
    - apply is0_iff in B0. apply is0_not in C0. assert (NB := zero_not_positive _ B0). destruct (gt0 b) as [[]|] eqn:GB; [apply gt0_iff in GB; contradiction| |discriminate]. cbn [r_and rbind].
      destruct (gt0 c) as [[]|] eqn:GC; cbn [r_and rbind]; [| |discriminate].
      + apply gt0_iff in GC. intros H. assert (G : only_cores d p p' /\ centers_of (comp p) (the d p')).
        { destruct d; [apply (copying Comp Base); [reflexivity|exact H]|]. assert (p' = p) by congruence. subst. split; [apply only_refl|apply (self_centers Comp)]. }
        split; [apply G|]. repeat split; try tauto; intros; try (apply G; assumption); tauto.
      + apply gt0_not in GC. intros H. assert (p' = p) by congruence. subst. split; [apply only_refl|]. repeat split; try tauto; intros; apply self_centers; assumption.
    - apply is0_not in B0. apply is0_iff in C0. assert (NC := zero_not_positive _ C0). destruct (gt0 b) as [[]|] eqn:GB; cbn [r_and rbind]; [| |discriminate].
      + apply gt0_iff in GB. intros H. assert (G : only_cores d p p' /\ centers_of (base p) (the d p')).
        { destruct d; [|apply (copying Base Comp); [reflexivity|exact H]]. assert (p' = p) by congruence. subst. split; [apply only_refl|apply (self_centers Base)]. }
        split; [apply G|]. repeat split; try tauto; intros; try (apply G; assumption); tauto.
      + apply gt0_not in GB. destruct (gt0 c) as [[]|] eqn:GC; [apply gt0_iff in GC; contradiction| |discriminate]. cbn [r_and rbind].
        intros H. assert (p' = p) by congruence. subst. split; [apply only_refl|]. repeat split; try tauto; intros; apply self_centers; assumption.
    - apply is0_not in B0, C0. destruct (gt0 b) as [[]|] eqn:GB; cbn [r_and rbind]; [| |discriminate].
      + apply gt0_iff in GB. destruct (gt0 c) as [[]|] eqn:GC; cbn [r_and rbind]; [| |discriminate].
        * apply gt0_iff in GC. intros H. destruct (mixing d "co_core_mass" p p') as [O M]; [cbn; auto 12|reflexivity|reflexivity|reflexivity|reflexivity|exact H|].
          split; [exact O|]. repeat split; try tauto; apply M.
        * apply gt0_not in GC. intros H. assert (p' = p) by congruence. subst. split; [apply only_refl|]. repeat split; try tauto; intros; apply self_centers; assumption.
      + apply gt0_not in GB. destruct (gt0 c) as [[]|] eqn:GC; cbn [r_and rbind]; [| |discriminate].
        * apply gt0_iff in GC. intros H. assert (p' = p) by congruence. subst. split; [apply only_refl|]. repeat split; try tauto; intros; apply self_centers; assumption.
        * apply gt0_not in GC. intros H. assert (p' = p) by congruence. subst. split; [apply only_refl|]. repeat split; try tauto; intros; apply self_centers; assumption.
  Qed.
  Lemma cores_HeMS_spec d p p' : mix_cores_HeMS fadd fsub fmul fdiv d p = Ok p' ->
    only_cores d p p' /\ (zero (attr (base p) "co_core_mass") /\ zero (attr (comp p) "co_core_mass") -> mixed_centers fadd fmul fdiv (base p) (comp p) "he_core_mass" (the d p')) /\
    (~ (zero (attr (base p) "co_core_mass") /\ zero (attr (comp p) "co_core_mass")) -> centers_of (the d p) (the d p')).
  Proof using Type.
    unfold mix_cores_HeMS. cbv zeta. destruct (is0 (attr (base p) "co_core_mass") && is0 (attr (comp p) "co_core_mass")) eqn:Z.
    - apply andb_true_iff in Z. rewrite !is0_iff in Z. intros H. destruct (mixing d "he_core_mass" p p') as [O M]; [cbn; auto 12|reflexivity|reflexivity|reflexivity|reflexivity|exact H|]. tauto.
    - assert (N : ~ (zero (attr (base p) "co_core_mass") /\ zero (attr (comp p) "co_core_mass"))).
      { rewrite <- !is0_iff. intros [A B]. rewrite A, B in Z. discriminate. }
      intros H. assert (p' = p) by (destruct d; (destruct (r_and _ _); [|discriminate]); cbn [rbind] in H; congruence). subst. split; [apply only_refl|]. split; [tauto|]. intros _. apply self_centers.
  Qed.
  Lemma cores_WD_spec p p' : mix_cores_WD fadd fsub fmul fdiv p = Ok p' -> only_cores Base p p' /\
    (attr (comp p) "co_core_mass" <> None /\ zero (attr (base p) "co_core_mass") -> centers_of (comp p) (base p')) /\
    (attr (comp p) "co_core_mass" <> None /\ positive (attr (base p) "co_core_mass") -> mixed_centers fadd fmul fdiv (base p) (comp p) "co_core_mass" (base p')) /\
    (attr (comp p) "co_core_mass" = None \/ ~ (zero (attr (base p) "co_core_mass") \/ positive (attr (base p) "co_core_mass")) -> centers_of (base p) (base p')).
  Proof using Type.
    unfold mix_cores_WD. cbv zeta. destruct (attr (comp p) "co_core_mass") as [c|] eqn:C.
    - destruct (is0 (attr (base p) "co_core_mass")) eqn:B.
      + apply is0_iff in B. pose proof (zero_not_positive _ B). intros H0. destruct (copying Comp Base p p' eq_refl H0) as [O K]. split; [exact O|]. split; [intros _; exact K|]. split; [tauto|]. intros [Q|Q]; [discriminate|tauto].
      + apply is0_not in B. destruct (gt0 (attr (base p) "co_core_mass")) as [[]|] eqn:G; cbn [rbind]; [| |discriminate].
        * apply gt0_iff in G. intros H. destruct (mixing Base "co_core_mass" p p') as [O M]; [cbn; auto 12|reflexivity|reflexivity|reflexivity|reflexivity|exact H|].
          split; [exact O|]. split; [tauto|]. split; [intros _; exact M|]. intros [Q|Q]; [discriminate|tauto].
        * apply gt0_not in G. intros H. assert (p' = p) by congruence. subst. split; [apply only_refl|]. split; [tauto|]. split; [tauto|]. intros _. apply (self_centers Base).
    - intros H. assert (p' = p) by congruence. subst. split; [apply only_refl|]. split; [intros [Q _]; congruence|]. split; [intros [Q _]; congruence|]. intros _. apply (self_centers Base).
  Qed.
End Proofs.
Section Stages.
  Context (fadd fsub fmul fdiv : num -> num -> num) (round10 : num -> num) (rel : num) (critical_rot kept_mass : num).
  Notation msp := (merged_star_properties fadd fsub fmul fdiv round10 rel critical_rot kept_mass).
  Notation avg := (averaged fadd fmul fdiv).
  Definition inferred (m : star) : Prop :=
    infer_star_state fsub round10 rel (attr m "mass") (attr m "surface_h1") (attr m "center_h1") (attr m "center_he4") (attr m "center_c12")
      (attr m "log_LH") (attr m "log_LHe") (attr m "log_Lnuc") false = Ok (sstate m).
  Lemma quiet a b c d e s : infer_star_state fsub round10 rel a b c d e (Some NaN) (Some NaN) (Some NaN) false = Ok s -> In s QUIET.
  Proof using Type.
    unfold infer_star_state. destruct (isna b); [intros H; assert (s = STATE_UNDETERMINED) by congruence; subst; left; reflexivity|].
    unfold rich_in, in_core. destruct (p_gt b _) as [rich|]; [|discriminate]. cbn [rbind].
    assert (B : burning_of fsub rel (Some NaN) (Some NaN) = Ok false) by reflexivity.
    destruct rich.
    - cbn [rbind]. rewrite B. cbn [rbind]. destruct (p_gt c _) as [h|]; [|discriminate]. destruct (p_gt d _) as [he|]; [|discriminate]. destruct (p_gt e _) as [cc|]; [|discriminate]. cbn [rbind].
      intros H. assert (E : s = ("H-rich_" ++ if negb (h || he) then (if negb cc then "Core_C_depleted" else "Core_He_depleted") else "non_burning")%string) by (destruct h, he, cc; cbn in H |- *; congruence).
      rewrite E. apply mem_iff. destruct h, he, cc; reflexivity.
    - destruct (p_round10 round10 b) as [x|]; [|discriminate]. destruct (p_round10 round10 c) as [y|]; [|discriminate]. cbn [rbind]. destruct (p_lt x y) as [l|]; [|discriminate]. cbn [rbind]. rewrite B. cbn [rbind].
      destruct (p_gt c _) as [h|]; [|discriminate]. destruct (p_gt d _) as [he|]; [|discriminate]. destruct (p_gt e _) as [cc|]; [|discriminate]. cbn [rbind].
      intros H. assert (E : s = ((if l then "accreted_He_" else "stripped_He_") ++ if negb (h || he) then (if negb cc then "Core_C_depleted" else "Core_He_depleted") else "non_burning")%string)
        by (destruct h, he, cc, l; cbn in H |- *; congruence).
      rewrite E. apply mem_iff. destruct h, he, cc, l; reflexivity.
  Qed.
  Lemma returned_spec d p : returned critical_rot d p = (setattr (the d p) SPIN (Some critical_rot), convert_star_to_massless_remnant (the (flip d) p)).
  Proof using Type. destruct d; reflexivity. Qed.
  Lemma in_erased n : mem n ERASED1 = true <-> In n (SPIN :: ERASED).
  Proof using Type. rewrite mem_iff. apply erased_same. Qed.
  Lemma ok_pair {A B} (a m : A) (b r : B) : Ok (a, b) = Ok (m, r) -> m = a /\ r = b.
  Proof using Type. intros H. split; congruence. Qed.
  Lemma settle (s0 s m : star) st : (forall n, attr s n = if mem n ERASED1 then Some NaN else attr s0 n) ->
    infer_star_state fsub round10 rel (attr s "mass") (attr s "surface_h1") (attr s "center_h1") (attr s "center_he4") (attr s "center_c12")
      (attr s "log_LH") (attr s "log_LHe") (attr s "log_Lnuc") false = Ok st ->
    sstate m = st -> (forall n, attr m n = if String.eqb n SPIN then Some critical_rot else attr s n) ->
    inferred m /\ In (sstate m) QUIET /\
    attr m SPIN = Some critical_rot /\ (forall n, In n ERASED -> attr m n = Some NaN) /\ (forall n, ~ In n (SPIN :: ERASED) -> attr m n = attr s0 n).
  Proof using Type.
    intros N I ST M.
    assert (Z : forall n, In n ERASED -> attr s n = Some NaN).
    { intros n J. rewrite N. replace (mem n ERASED1) with true; [reflexivity|]. symmetry. apply in_erased. right. exact J. }
    assert (K : forall n, String.eqb n SPIN = false -> attr m n = attr s n) by (intros n E; rewrite M, E; reflexivity).
    split; [unfold inferred; rewrite !K, ST by reflexivity; exact I|].
    split; [rewrite ST; rewrite (Z "log_LH"), (Z "log_LHe"), (Z "log_Lnuc") in I by (apply mem_iff; reflexivity); exact (quiet _ _ _ _ _ _ I)|].
    split; [rewrite M; reflexivity|]. split.
    - intros n J. rewrite K; [apply Z; exact J|]. apply String.eqb_neq. intros ->. revert J. apply mem_not. reflexivity.
    - intros n J. rewrite K, N; [|apply String.eqb_neq; intros ->; apply J; left; reflexivity].
      replace (mem n ERASED1) with false; [reflexivity|]. symmetry. apply not_true_iff_false. rewrite in_erased. exact J.
  Qed.
  Lemma settled d p s m r : rbind (check_state fsub round10 rel s) (fun x => Ok (returned critical_rot d (upd d (fun _ => x) p))) = Ok (m, r) ->
    r = convert_star_to_massless_remnant (the (flip d) p) /\
    infer_star_state fsub round10 rel (attr s "mass") (attr s "surface_h1") (attr s "center_h1") (attr s "center_he4") (attr s "center_c12")
      (attr s "log_LH") (attr s "log_LHe") (attr s "log_Lnuc") false = Ok (sstate m) /\
    (forall n, attr m n = if String.eqb n SPIN then Some critical_rot else attr s n).
  Proof using Type.
    unfold check_state. destruct (infer_star_state _ _ _ _ _ _ _ _ _ _ _ _) as [st|]; [|discriminate]. cbn [rbind]. rewrite returned_spec, the_upd, flip_upd. intros H.
    destruct (ok_pair _ _ _ _ H) as [-> ->]. split; [reflexivity|]. split; reflexivity.
  Qed.
  Lemma finish_spec d p m r : finish fsub round10 rel critical_rot d p = Ok (m, r) ->
    r = convert_star_to_massless_remnant (the (flip d) p) /\ inferred m /\ In (sstate m) QUIET /\
    attr m SPIN = Some critical_rot /\ (forall n, In n ERASED -> attr m n = Some NaN) /\ (forall n, ~ In n (SPIN :: ERASED) -> attr m n = attr (the d p) n).
  Proof using Type.
    unfold finish. cbv zeta. intros H. apply settled in H. rewrite the_upd, flip_upd in H. destruct H as (R & I & M). split; [exact R|].
    exact (settle (the d p) _ m _ (erased_spec (the d p)) I eq_refl M).
  Qed.
  Lemma sum_op f x y v : p_op f x y = Ok v -> sum f x y v.
  Proof using Type. unfold p_op, sum. destruct x as [a|]; [|discriminate]. destruct y as [b|]; [|discriminate]. intros H. exists a, b. repeat split. congruence. Qed.
  Lemma add_spec d p p' : add_masses fadd d p = Ok p' -> the (flip d) p' = the (flip d) p /\ sstate (the d p') = sstate (the d p) /\
    (forall k, In k MASS -> sum fadd (attr (base p) k) (attr (comp p) k) (attr (the d p') k)) /\ (forall k, ~ In k MASS -> attr (the d p') k = attr (the d p) k).
  Proof using Type.
    unfold add_masses. intros H. destruct (for_each_spec d (fun p k => p_op fadd (attr (base p) k) (attr (comp p) k)) MASSES p p') with (3 := H) as (A & B & C & D).
    - apply nodup_b. vm_compute. reflexivity.
    - intros q k k' v _ _ NE. apply String.eqb_neq in NE. destruct d; cbn [upd base comp]; rewrite attr_set, NE; reflexivity.
    - split; [exact A|]. split; [exact B|]. split; [|exact D]. intros k I. apply sum_op, C, I.
  Qed.
  Lemma averaged_ext B C B' C' w w' n v : attr B n = attr B' n -> attr C n = attr C' n -> avg B C w w' n v -> avg B' C' w w' n v.
  Proof using Type. unfold averaged, weighable. intros -> ->. auto. Qed.
  Definition ALL := MASS ++ CENTER ++ SURFACE ++ SPIN :: ERASED ++ OTHERS ++ [ "avg_c_in_c_core"; "center_gamma" ].
  Lemma all_same : forall k, mem k STARPROPERTIES = mem k ALL.
  Proof using Type.
    assert (H : forallb (fun k => mem k ALL) STARPROPERTIES && forallb (fun k => mem k STARPROPERTIES) ALL = true) by (vm_compute; reflexivity).
    apply andb_true_iff in H as [A B]. rewrite forallb_forall in A, B. intros k. destruct (mem k STARPROPERTIES) eqn:E1, (mem k ALL) eqn:E2; try reflexivity.
    - apply mem_iff, A in E1. congruence.
    - apply mem_iff, B in E2. congruence.
  Qed.
  Lemma remnant_spec s : remnant_of s (convert_star_to_massless_remnant s).
  Proof using Type.
    split; [reflexivity|]. split; [reflexivity|]. intros n NE. unfold convert_star_to_massless_remnant. cbn [attr]. apply String.eqb_neq in NE. rewrite NE, all_same. fold ALL.
    destruct (in_dec string_dec n ALL) as [I|I]; [apply mem_iff in I|apply mem_not in I]; rewrite I; reflexivity.
  Qed.
  Lemma incl_b l l' : forallb (fun k => mem k l') l = true -> forall k, In k l -> In k l'.
  Proof using Type. rewrite forallb_forall. intros H k I. apply mem_iff, H, I. Qed.

  (** Which branch is taken. *)
  Definition branch (k : kind) (B C : star) : result (star * star) :=
    let p := Pair B C in
    match k with
    | MainMain => rbind (mix fadd fsub fmul fdiv Base (CENTERS ++ SURFACES) "mass" "mass" p) (fun p =>
      rbind (p_op fadd (attr (base p) "mass") (attr (comp p) "mass")) (fun m =>
      let p := upd Base (fun s => setattr s "mass" (Some (fmul (or_nan m) kept_mass))) p in
      Ok (returned critical_rot Base (upd Base (fun s => apply_nan_attributes s [ "center_gamma"; "avg_c_in_c_core"; "envelope_binding_energy" ]) p))))
    | PostMain => post_and_MS fadd fsub fmul fdiv round10 rel critical_rot Base "H-rich_envelope_mass" "mass" p
    | MainPost => post_and_MS fadd fsub fmul fdiv round10 rel critical_rot Comp "mass" "H-rich_envelope_mass" p
    | PostPost => rbind (mix_cores fadd fsub fmul fdiv Base p) (fun p => rbind (mix fadd fsub fmul fdiv Base SURFACES "H-rich_envelope_mass" "H-rich_envelope_mass" p) (fun p =>
      rbind (add_masses fadd Base p) (finish fsub round10 rel critical_rot Base)))
    | PostHeMain => rbind (mix_cores_HeMS fadd fsub fmul fdiv Base p) (fun p => rbind (add_masses fadd Base p) (finish fsub round10 rel critical_rot Base))
    | HeMainPost => rbind (mix_cores_HeMS fadd fsub fmul fdiv Comp p) (fun p => rbind (add_masses fadd Comp p) (finish fsub round10 rel critical_rot Comp))
    | PostHe => rbind (mix_cores fadd fsub fmul fdiv Base p) (fun p => rbind (add_masses fadd Base p) (finish fsub round10 rel critical_rot Base))
    | HePost => rbind (mix_cores fadd fsub fmul fdiv Comp p) (fun p => rbind (add_masses fadd Comp p) (finish fsub round10 rel critical_rot Comp))
    | HeHe => rbind (mix_cores fadd fsub fmul fdiv Base p) (fun p => rbind (add_masses fadd Base p) (fun p =>
      rbind (mix fadd fsub fmul fdiv Base SURFACES "He-rich_envelope_mass" "He-rich_envelope_mass" p) (finish fsub round10 rel critical_rot Base)))
    | StarWD => rbind (mix_cores_WD fadd fsub fmul fdiv p) (fun p =>
      rbind (for_each Base (fun p k => p_op fadd (attr (base p) k) (attr (comp p) "mass")) MASSES p) (finish fsub round10 rel critical_rot Base))
    | StarCompact => Ok (convert_star_to_massless_remnant B, C)
    end.
  Definition sel (s t : string) : option kind :=
    if mem s FOR_HMS && mem t FOR_HMS then Some MainMain
    else if mem s FOR_POSTMS && mem t FOR_HMS then Some PostMain
    else if mem s FOR_HMS && mem t FOR_POSTMS then Some MainPost
    else if mem s FOR_POSTMS && mem t FOR_POSTMS then Some PostPost
    else if mem s FOR_POSTMS && mem t FOR_HeMS then Some PostHeMain
    else if mem s FOR_HeMS && mem t FOR_POSTMS then Some HeMainPost
    else if mem s FOR_POSTMS && mem t FOR_POSTHeMS then Some PostHe
    else if mem s FOR_POSTHeMS && mem t FOR_POSTMS then Some HePost
    else if mem s HE_RICH && mem t HE_RICH then Some HeHe
    else if mem s NOT_CO && mem t [ "WD" ] then Some StarWD
    else if mem s NOT_CO && mem t [ "NS"; "BH" ] then Some StarCompact
    else None.
  Lemma dispatch B C : msp B C = match sel (sstate B) (sstate C) with Some k => branch k B C | None => Raise ModelError end.
  Proof using Type.
    unfold merged_star_properties, sel, branch. cbv zeta.
    repeat (match goal with |- context [if mem ?a ?l && mem ?b ?l' then _ else _] => destruct (mem a l && mem b l') end; [cbv iota; reflexivity|]). cbv iota. reflexivity.
  Qed.
  Definition kind_eq (a b : kind) : {a = b} + {a <> b}.
  Proof using Type. decide equality. Defined.
  Definition sel_b (l l' : list string) (k : kind) : bool :=
    forallb (fun s => forallb (fun t => match sel s t with Some k' => if kind_eq k' k then true else false | None => false end) l') l.
  Lemma sel_b_spec l l' k : sel_b l l' k = true -> forall s t, In s l -> In t l' -> sel s t = Some k.
  Proof using Type.
    unfold sel_b. intros H s t I J. rewrite forallb_forall in H. specialize (H s I). rewrite forallb_forall in H. specialize (H t J).
    destruct (sel s t) as [k'|]; [|discriminate]. destruct (kind_eq k' k); [congruence|discriminate].
  Qed.
  Lemma kind_sel s t k : kind_of s t k -> sel s t = Some k.
  Proof using Type.
    destruct 1 as [s t I J|s t I J|s t I J|s t I J|s t I J|s t I J|s t I J|s t I J|s t I J|s I|s t I J];
      [revert I J; apply sel_b_spec; vm_compute; reflexivity ..| |revert I J; apply sel_b_spec; vm_compute; reflexivity].
    assert (J : In "WD" [ "WD" ]) by (left; reflexivity). revert I J. apply sel_b_spec. vm_compute. reflexivity.
  Qed.
  Lemma sel_kind s t k : sel s t = Some k -> kind_of s t k.
  Proof using Type.
    unfold sel.
    repeat (match goal with |- context [if mem ?a ?l && mem ?b ?l' then _ else _] => destruct (mem a l && mem b l') eqn:?;
      [match goal with H : mem a l && mem b l' = true |- _ => apply andb_true_iff in H as [I J]; apply mem_iff in I, J end; intros E; injection E as <-|] end).
    12: discriminate.
    all: repeat match goal with H : _ && _ = false |- _ => apply andb_false_iff in H; rewrite !mem_not in H end.
    all: [> apply k_mm|apply k_pm|apply k_mp|apply k_pp|apply k_ph|apply k_hp|apply k_pq|apply k_qp|apply k_hh|destruct J as [<-|[]]; apply k_wd|apply k_co].
    all: try first [revert I; apply incl_b; vm_compute; reflexivity|revert J; apply incl_b; vm_compute; reflexivity].
    all: assert (F1 : forall x, In x FOR_POSTHeMS -> In x HE_POST \/ In x FOR_POSTMS) by (intros x X; apply in_app_or; revert X; apply incl_b; vm_compute; reflexivity).
    all: assert (F2 : forall x, In x HE_RICH -> In x (HE_MAIN ++ HE_POST) \/ In x FOR_POSTMS) by (intros x X; apply in_app_or; revert X; apply incl_b; vm_compute; reflexivity).
    all: assert (F3 : forall x, In x HE_RICH -> In x FOR_HeMS \/ In x FOR_POSTHeMS) by (intros x X; apply in_app_or; revert X; apply incl_b; vm_compute; reflexivity).
    - destruct (F1 t J) as [K|K]; [exact K|exfalso]. match goal with H : ~ In s FOR_POSTMS \/ ~ In t FOR_POSTMS |- _ => destruct H; contradiction end.
    - destruct (F1 s I) as [K|K]; [exact K|exfalso]. match goal with H : ~ In s FOR_POSTMS \/ ~ In t FOR_POSTMS |- _ => destruct H; contradiction end.
    - destruct (F2 s I) as [K|K]; [exact K|exfalso]. destruct (F3 t J) as [L|L].
      + match goal with H : ~ In s FOR_POSTMS \/ ~ In t FOR_HeMS |- _ => destruct H; contradiction end.
      + match goal with H : ~ In s FOR_POSTMS \/ ~ In t FOR_POSTHeMS |- _ => destruct H; contradiction end.
    - destruct (F2 t J) as [K|K]; [exact K|exfalso]. destruct (F3 s I) as [L|L].
      + match goal with H : ~ In s FOR_HeMS \/ ~ In t FOR_POSTMS |- _ => destruct H; contradiction end.
      + match goal with H : ~ In s FOR_POSTHeMS \/ ~ In t FOR_POSTMS |- _ => destruct H; contradiction end.
  Qed.

  Ltac apart := match goal with
    | I : In ?n ?L |- ~ In ?n ?L' => exact (apart_b L L' eq_refl n I)
    | N : ~ In ?n ?L |- ~ In ?n ?L' => let J := fresh in intros J; apply N; revert J; apply incl_b; vm_compute; reflexivity end.
  Definition outcome (k : kind) (B C m r : star) : Prop :=
    remnant_of (swallowed k B C) r /\ masses fadd fmul kept_mass k B C m /\ surfaces fadd fsub fmul fdiv k B C m /\ centers fadd fmul fdiv k B C m /\ rest critical_rot k B C m.
  Definition state_ok (k : kind) (B m : star) : Prop :=
    match k with MainMain => sstate m = sstate B | _ => inferred m /\ In (sstate m) QUIET end.
  Definition TOUCHED := MASS ++ SURFACE ++ CORE ++ [ "center_gamma" ].
  Lemma rest_of k B C m q : k <> MainMain -> attr m SPIN = Some critical_rot -> (forall n, In n ERASED -> attr m n = Some NaN) ->
    (forall n, ~ In n (SPIN :: ERASED) -> attr m n = attr q n) -> (forall n, ~ In n TOUCHED -> attr q n = attr (survivor k B C) n) -> rest critical_rot k B C m.
  Proof using Type.
    intros NK SP ER M Q. split; [exact SP|]. split; [exact ER|]. split; [|split].
    - intros n I _. rewrite M by apart. apply Q. apart.
    - rewrite M, Q by (apply mem_not; reflexivity). destruct k; [congruence|reflexivity ..].
    - intros n N. rewrite M by apart. apply Q. apart.
  Qed.
  Lemma cores_add d p p1 p2 m r : only_cores d p p1 -> add_masses fadd d p1 = Ok p2 -> finish fsub round10 rel critical_rot d p2 = Ok (m, r) ->
    remnant_of (the (flip d) p) r /\ (forall n, In n MASS -> sum fadd (attr (base p) n) (attr (comp p) n) (attr m n)) /\
    (forall n, In n SURFACE -> attr m n = attr (the d p) n) /\ (forall n, In n (CORE ++ [ "center_gamma" ]) -> attr m n = attr (the d p1) n) /\
    inferred m /\ In (sstate m) QUIET /\
    forall k B C, k <> MainMain -> the d p = survivor k B C -> rest critical_rot k B C m.
  Proof using Type.
    intros (F1 & S1 & A1) A F. apply add_spec in A as (F2 & _ & A2 & O2). apply finish_spec in F as (R & IN & QU & SP & ER & M).
    split; [rewrite R, F2, F1; apply remnant_spec|]. split; [|split; [|split; [|split; [exact IN|split; [exact QU|]]]]].
    - intros n I. rewrite M by apart. specialize (A2 n I). assert (E := A1 n). destruct d; cbn [the flip] in *; rewrite F1, E in A2 by apart; exact A2.
    - intros n I. rewrite M, O2, A1 by apart. reflexivity.
    - intros n I. rewrite M, O2 by apart. reflexivity.
    - intros k B C NK E. apply (rest_of k B C m (the d p2)); auto. intros n N. rewrite O2, A1, E by apart. reflexivity.
  Qed.
  Lemma merged_transfer S B C m m' : (forall n, In n (CORE ++ [ "center_gamma" ]) -> attr m' n = attr m n) -> merged_cores fadd fmul fdiv S B C m -> merged_cores fadd fmul fdiv S B C m'.
  Proof using Type.
    intros E (H1 & H2 & H3 & H4 & H5). unfold merged_cores. cbv zeta. split; [intros H; eapply mixed_transfer; [exact E|apply H1, H]|]. split; [intros H; eapply centers_transfer; [exact E|apply H2, H]|].
    split; [intros H; eapply centers_transfer; [exact E|apply H3, H]|]. split; [intros H; eapply mixed_transfer; [exact E|apply H4, H]|]. intros H. eapply centers_transfer; [exact E|apply H5, H].
  Qed.
  Lemma surf_apart : forall k, In k SURFACES -> ~ In k [ "mass"; "he_core_mass"; "co_core_mass" ].
  Proof using Type. apply apart_b. reflexivity. Qed.
  Lemma post_MS d w1 w2 p m r : In w1 WEIGHTS -> In w2 WEIGHTS -> post_and_MS fadd fsub fmul fdiv round10 rel critical_rot d w1 w2 p = Ok (m, r) ->
    (exists m1 m2, weight fsub (base p) w1 = Ok m1 /\ weight fsub (comp p) w2 = Ok m2) /\
    remnant_of (the (flip d) p) r /\ sum fadd (attr (base p) "mass") (attr (comp p) "mass") (attr m "mass") /\
    (forall n, In n SURFACE -> avg (base p) (comp p) (wt fsub (base p) w1) (wt fsub (comp p) w2) n (attr m n)) /\
    attr m SPIN = Some critical_rot /\ (forall n, In n ERASED -> attr m n = Some NaN) /\
    (forall n, ~ In n ("mass" :: SURFACE ++ SPIN :: ERASED) -> attr m n = attr (the d p) n) /\ inferred m /\ In (sstate m) QUIET.
  Proof using Type.
    intros I1 I2 H. unfold post_and_MS in H. destruct (mix fadd fsub fmul fdiv d SURFACES w1 w2 p) as [p1|] eqn:M1; [|discriminate]. cbn [rbind] in H.
    apply mix_spec in M1 as (F1 & _ & WT & A1 & O1); auto; [|apply nodup_b; vm_compute; reflexivity|discriminate|exact surf_apart].
    destruct (p_op fadd (attr (base p1) "mass") (attr (comp p1) "mass")) as [t|] eqn:T; [|discriminate]. cbn [rbind] in H. cbv zeta in H.
    apply settled in H as (R & I & M). rewrite !the_upd in I, M. rewrite !flip_upd in R. 
    set (s0 := setattr (the d p1) "mass" t) in *. set (s1 := apply_nan_attributes s0 []) in *.
    assert (N1 : forall n, attr s1 n = if mem n ERASED1 then Some NaN else attr s0 n) by (intros n; apply erased_spec). clearbody s1.
    assert (Z : forall n, In n ERASED -> attr s1 n = Some NaN).
    { intros n J. rewrite N1. replace (mem n ERASED1) with true; [reflexivity|]. symmetry. apply in_erased. right. exact J. }
    set (s2 := setattr (setattr s1 "log_LHe" (attr s1 "log_LHe")) "log_LZ" (attr (setattr s1 "log_LHe" (attr s1 "log_LHe")) "log_LZ")) in *.
    assert (E2 : forall n, attr s2 n = attr s1 n).
    { intros n. subst s2. rewrite !attr_set. destruct (String.eqb_spec n "log_LZ") as [-> |_]; [reflexivity|]. destruct (String.eqb_spec n "log_LHe") as [-> |_]; reflexivity. }
    clearbody s2. assert (N2 : forall n, attr s2 n = if mem n ERASED1 then Some NaN else attr s0 n) by (intros n; rewrite E2; apply N1).
    destruct (settle s0 s2 m _ N2 I eq_refl M) as (IN & QU & SP & ER & K).
    assert (B1 : attr (base p1) "mass" = attr (base p) "mass" /\ attr (comp p1) "mass" = attr (comp p) "mass").
    { specialize (O1 "mass" ltac:(apply mem_not; reflexivity)). destruct d; cbn [the flip] in F1, O1; rewrite F1, O1; auto. }
    destruct B1 as [B1 C1]. rewrite B1, C1 in T.
    split; [exact WT|]. split; [rewrite R, F1; apply remnant_spec|]. split; [rewrite K by (apply mem_not; reflexivity); subst s0; rewrite attr_set; apply sum_op, T|].
    split; [|split; [exact SP|split; [exact ER|split; [|split; assumption]]]].
    - intros n J. rewrite K by apart. subst s0. rewrite attr_set. destruct (String.eqb_spec n "mass") as [-> |_]; [exfalso; revert J; apply mem_not; reflexivity|]. apply A1. exact J.
    - intros n J. rewrite K by apart. subst s0. rewrite attr_set. destruct (String.eqb_spec n "mass") as [-> |_]; [exfalso; apply J; left; reflexivity|]. apply O1. apart.
  Qed.
  Lemma wt_plain s w : String.eqb w "H-rich_envelope_mass" = false -> String.eqb w "He-rich_envelope_mass" = false -> wt fsub s w = attr s w.
  Proof using Type. intros E1 E2. unfold wt, weight. rewrite E1, E2. reflexivity. Qed.
  Lemma main_main B C (p1 : pair) t s1 : comp p1 = C ->
    (forall k, In k (CENTERS ++ SURFACES) -> avg B C (attr B "mass") (attr C "mass") k (attr (base p1) k)) -> (forall k, ~ In k (CENTERS ++ SURFACES) -> attr (base p1) k = attr B k) ->
    p_op fadd (attr B "mass") (attr C "mass") = Ok t -> sstate s1 = sstate B ->
    (forall n, attr s1 n = if mem n (E3 ++ SPIN :: ERASED) then Some NaN else attr (setattr (base p1) "mass" (Some (fmul (or_nan t) kept_mass))) n) ->
    outcome MainMain B C (setattr s1 SPIN (Some critical_rot)) (convert_star_to_massless_remnant (comp p1)) /\ state_ok MainMain B (setattr s1 SPIN (Some critical_rot)).
  Proof using Type.
    intros F1 A1 O1 T SS N1. set (s0 := setattr (base p1) "mass" (Some (fmul (or_nan t) kept_mass))) in *.
    assert (M : forall n, ~ In n (E3 ++ SPIN :: ERASED) -> attr (setattr s1 SPIN (Some critical_rot)) n = attr s0 n).
    { intros n J. rewrite attr_set. destruct (String.eqb_spec n SPIN) as [-> |_]; [exfalso; revert J; clear; intros J; apply J; apply mem_iff; reflexivity|]. rewrite N1. apply mem_not in J. rewrite J. reflexivity. }
    assert (M0 : forall n, ~ In n ("mass" :: E3 ++ SPIN :: ERASED) -> attr (setattr s1 SPIN (Some critical_rot)) n = attr (base p1) n).
    { intros n J. rewrite M by apart. subst s0. rewrite attr_set. destruct (String.eqb_spec n "mass") as [-> |_]; [exfalso; apply J; left; reflexivity|reflexivity]. }
    assert (ER : forall n, In n (E3 ++ ERASED) -> attr (setattr s1 SPIN (Some critical_rot)) n = Some NaN).
    { intros n J. rewrite attr_set. destruct (String.eqb_spec n SPIN) as [-> |_]; [exfalso; revert J; apply mem_not; reflexivity|]. rewrite N1.
      replace (mem n (E3 ++ SPIN :: ERASED)) with true; [reflexivity|]. symmetry. apply mem_iff. revert J. apply incl_b. reflexivity. }
    split; [|exact SS]. split; [rewrite F1; apply remnant_spec|]. split; [|split; [|split]].
    + split.
      * exists (or_nan t). apply sum_op in T as (x & y & X & Y & ->). split; [exists x, y; repeat split; assumption|]. rewrite M by (apply mem_not; reflexivity). reflexivity.
      * intros n I NE. assert (J : In n [ "he_core_mass"; "c_core_mass"; "o_core_mass"; "co_core_mass" ]) by (destruct I as [<-|I]; [congruence|exact I]). rewrite M0, O1 by apart. reflexivity.
    + intros n I. rewrite M0 by apart. apply A1. revert I. apply incl_b. reflexivity.
    + split; [|split; apply ER; apply mem_iff; reflexivity]. intros n I. rewrite M0 by apart. apply A1. revert I. apply incl_b. reflexivity.
    + split; [reflexivity|]. split; [intros n I; apply ER, in_or_app; right; exact I|]. split; [|split; [apply ER; apply mem_iff; reflexivity|]].
      * intros n I NE. assert (J : In n [ "metallicity"; "he_core_radius"; "c_core_radius"; "o_core_radius"; "co_core_radius"; "total_mass_h1"; "total_mass_he4" ]) by (cbn in I |- *; intuition congruence).
        rewrite M0, O1 by apart. reflexivity.
      * intros n N. rewrite M0, O1 by apart. reflexivity.
  Qed.
  Lemma outcome_MainMain B C m r : branch MainMain B C = Ok (m, r) -> outcome MainMain B C m r /\ state_ok MainMain B m.
  Proof using Type.
    unfold branch. intros H.
    destruct (mix fadd fsub fmul fdiv Base (CENTERS ++ SURFACES) "mass" "mass" (Pair B C)) as [p1|] eqn:M1; [|discriminate]. cbn [rbind] in H.
    apply mix_spec in M1 as (F1 & S1 & _ & A1 & O1); [|apply nodup_b; vm_compute; reflexivity|discriminate|apply apart_b; reflexivity|cbn; auto|cbn; auto].
    destruct (p_op fadd (attr (base p1) "mass") (attr (comp p1) "mass")) as [t|] eqn:T; [|discriminate]. cbn [rbind] in H. cbv zeta in H.
    rewrite returned_spec, !the_upd, !flip_upd in H. destruct (ok_pair _ _ _ _ H) as [Em Er]. clear H. rewrite Em, Er. clear Em Er m r.
    assert (B1 : attr (base p1) "mass" = attr B "mass") by (apply (O1 "mass"); apply mem_not; reflexivity).
    assert (C1 : comp p1 = C) by exact F1. rewrite B1, C1 in T.
    apply (main_main B C p1 t); [exact C1|exact A1|exact O1|exact T|rewrite nan_state; exact S1|intros n; apply erased3_spec].
  Qed.
  Lemma outcome_PostMain B C m r : branch PostMain B C = Ok (m, r) -> outcome PostMain B C m r /\ state_ok PostMain B m.
  Proof using Type.
    cbn [branch]. intros H.
    apply post_MS in H as ((m1 & m2 & W1 & W2) & R & T & A & SP & ER & K & IN & QU); [|cbn; auto 6|cbn; auto]. cbn [base comp the flip] in *.
    split; [|split; assumption]. split; [exact R|]. split; [|split; [|split]].
    + split; [exact T|]. intros n I NE. assert (J : In n [ "he_core_mass"; "c_core_mass"; "o_core_mass"; "co_core_mass" ]) by (destruct I as [<-|I]; [congruence|exact I]). apply K. apart.
    + exists (wt fsub B "H-rich_envelope_mass"). split; [eapply wt_H; exact W1|exact A].
    + intros n I. apply K. apart.
    + split; [exact SP|]. split; [exact ER|]. split; [intros n I _; apply K; apart|]. split; [apply K; apply mem_not; reflexivity|]. intros n N. apply K. apart.
  Qed.
  Lemma outcome_MainPost B C m r : branch MainPost B C = Ok (m, r) -> outcome MainPost B C m r /\ state_ok MainPost B m.
  Proof using Type.
    cbn [branch]. intros H.
    apply post_MS in H as ((m1 & m2 & W1 & W2) & R & T & A & SP & ER & K & IN & QU); [|cbn; auto|cbn; auto 6]. cbn [base comp the flip] in *.
    split; [|split; assumption]. split; [exact R|]. split; [|split; [|split]].
    + split; [exact T|]. intros n I NE. assert (J : In n [ "he_core_mass"; "c_core_mass"; "o_core_mass"; "co_core_mass" ]) by (destruct I as [<-|I]; [congruence|exact I]). apply K. apart.
    + exists (wt fsub C "H-rich_envelope_mass"). split; [eapply wt_H; exact W2|exact A].
    + intros n I. apply K. apart.
    + split; [exact SP|]. split; [exact ER|]. split; [intros n I _; apply K; apart|]. split; [apply K; apply mem_not; reflexivity|]. intros n N. apply K. apart.
  Qed.
  Lemma rbind_ok {A B} (x : result A) (f : A -> result B) y : rbind x f = Ok y -> exists a, x = Ok a /\ f a = Ok y.
  Proof using Type. destruct x as [a|]; [|discriminate]. intros H. exists a. split; [reflexivity|exact H]. Qed.
  Lemma outcome_PostPost B C m r : branch PostPost B C = Ok (m, r) -> outcome PostPost B C m r /\ state_ok PostPost B m.
  Proof using Type.
    cbn [branch]. intros H.
    apply rbind_ok in H as (p1 & M1 & H). apply cores_spec in M1 as [(F1 & _ & O1) MC].
    apply rbind_ok in H as (p2 & M2 & H).
    apply mix_spec in M2 as (F2 & _ & (m1 & m2 & W1 & W2) & A2 & O2); [|apply nodup_b; vm_compute; reflexivity|discriminate|exact surf_apart|cbn; auto 6|cbn; auto 6].
    apply rbind_ok in H as (p3 & M3 & H). apply add_spec in M3 as (F3 & _ & A3 & O3).
    apply finish_spec in H as (R & IN & QU & SP & ER & M). cbn [the flip base comp] in *.
    split; [|split; assumption]. split; [rewrite R, F3, F2, F1; apply remnant_spec|]. split; [|split; [|split]].
    + intros n I. rewrite M by apart. specialize (A3 n I). rewrite F2, F1, O2, O1 in A3 by apart. exact A3.
    + exists (wt fsub (base p1) "H-rich_envelope_mass"), (wt fsub (comp p1) "H-rich_envelope_mass"). apply wt_H in W1, W2.
      unfold layer in W1. rewrite F1 in *. rewrite !O1 in W1 by (apply mem_not; reflexivity). split; [exact W1|]. split; [exact W2|].
      intros n I. rewrite M, O3 by apart. assert (A := A2 n I). revert A. apply averaged_ext; [apply O1; apart|reflexivity].
    + eapply merged_transfer; [|exact MC]. intros n I. rewrite M, O3, O2 by apart. reflexivity.
    + apply (rest_of PostPost B C m (base p3)); auto; [discriminate|]. intros n N. rewrite O3, O2, O1 by apart. reflexivity.
  Qed.
  Lemma outcome_PostHeMain B C m r : branch PostHeMain B C = Ok (m, r) -> outcome PostHeMain B C m r /\ state_ok PostHeMain B m.
  Proof using Type.
    cbn [branch]. intros H.
    apply rbind_ok in H as (p1 & M1 & H). apply cores_HeMS_spec in M1 as (O1 & C1 & C2).
    apply rbind_ok in H as (p2 & M2 & H). destruct (cores_add _ _ _ _ _ _ O1 M2 H) as (R & A & SU & CE & IN & QU & RE).
    cbn [the flip base comp] in *. split; [|split; assumption]. split; [exact R|]. split; [exact A|]. split; [exact SU|]. split; [|apply RE; [discriminate|reflexivity]].
    split; [intros Z; eapply mixed_transfer; [exact CE|apply C1, Z]|intros Z; eapply centers_transfer; [exact CE|apply C2, Z]].
  Qed.
  Lemma outcome_HeMainPost B C m r : branch HeMainPost B C = Ok (m, r) -> outcome HeMainPost B C m r /\ state_ok HeMainPost B m.
  Proof using Type.
    cbn [branch]. intros H.
    apply rbind_ok in H as (p1 & M1 & H). apply cores_HeMS_spec in M1 as (O1 & C1 & C2).
    apply rbind_ok in H as (p2 & M2 & H). destruct (cores_add _ _ _ _ _ _ O1 M2 H) as (R & A & SU & CE & IN & QU & RE).
    cbn [the flip base comp] in *. split; [|split; assumption]. split; [exact R|]. split; [exact A|]. split; [exact SU|]. split; [|apply RE; [discriminate|reflexivity]].
    split; [intros Z; eapply mixed_transfer; [exact CE|apply C1, Z]|intros Z; eapply centers_transfer; [exact CE|apply C2, Z]].
  Qed.
  Lemma outcome_PostHe B C m r : branch PostHe B C = Ok (m, r) -> outcome PostHe B C m r /\ state_ok PostHe B m.
  Proof using Type.
    cbn [branch]. intros H.
    apply rbind_ok in H as (p1 & M1 & H). apply cores_spec in M1 as (O1 & MC).
    apply rbind_ok in H as (p2 & M2 & H). destruct (cores_add _ _ _ _ _ _ O1 M2 H) as (R & A & SU & CE & IN & QU & RE).
    cbn [the flip base comp] in *. split; [|split; assumption]. split; [exact R|]. split; [exact A|]. split; [exact SU|]. split; [|apply RE; [discriminate|reflexivity]].
    eapply merged_transfer; [exact CE|exact MC].
  Qed.
  Lemma outcome_HePost B C m r : branch HePost B C = Ok (m, r) -> outcome HePost B C m r /\ state_ok HePost B m.
  Proof using Type.
    cbn [branch]. intros H.
    apply rbind_ok in H as (p1 & M1 & H). apply cores_spec in M1 as (O1 & MC).
    apply rbind_ok in H as (p2 & M2 & H). destruct (cores_add _ _ _ _ _ _ O1 M2 H) as (R & A & SU & CE & IN & QU & RE).
    cbn [the flip base comp] in *. split; [|split; assumption]. split; [exact R|]. split; [exact A|]. split; [exact SU|]. split; [|apply RE; [discriminate|reflexivity]].
    eapply merged_transfer; [exact CE|exact MC].
  Qed.
  Lemma outcome_HeHe B C m r : branch HeHe B C = Ok (m, r) -> outcome HeHe B C m r /\ state_ok HeHe B m.
  Proof using Type.
    cbn [branch]. intros H.
    apply rbind_ok in H as (p1 & M1 & H). apply cores_spec in M1 as [(F1 & _ & O1) MC].
    apply rbind_ok in H as (p2 & M2 & H). apply add_spec in M2 as (F2 & _ & A2 & O2).
    apply rbind_ok in H as (p3 & M3 & H).
    apply mix_spec in M3 as (F3 & _ & (m1 & m2 & W1 & W2) & A3 & O3); [|apply nodup_b; vm_compute; reflexivity|discriminate|exact surf_apart|cbn; auto 6|cbn; auto 6].
    apply finish_spec in H as (R & IN & QU & SP & ER & M). cbn [the flip base comp] in *.
    split; [|split; assumption]. split; [rewrite R, F3, F2, F1; apply remnant_spec|]. split; [|split; [|split]].
    + intros n I. rewrite M, O3 by apart. specialize (A2 n I). rewrite F1, O1 in A2 by apart. exact A2.
    + exists (wt fsub (base p2) "He-rich_envelope_mass"), (wt fsub (comp p2) "He-rich_envelope_mass"). apply wt_He in W1, W2.
      rewrite F2, F1 in *. split; [|split; [exact W2|]].
      * unfold layer in W1 |- *. rewrite !M, !O3 by (apply mem_not; reflexivity). exact W1.
      * intros n I. rewrite M by apart. assert (A := A3 n I). revert A. apply averaged_ext; [rewrite O2, O1 by apart; reflexivity|reflexivity].
    + eapply merged_transfer; [|exact MC]. intros n I. rewrite M, O3, O2 by apart. reflexivity.
    + apply (rest_of HeHe B C m (base p3)); auto; [discriminate|]. intros n N. rewrite O3, O2, O1 by apart. reflexivity.
  Qed.
  Lemma outcome_StarWD B C m r : branch StarWD B C = Ok (m, r) -> outcome StarWD B C m r /\ state_ok StarWD B m.
  Proof using Type.
    cbn [branch]. intros H.
    apply rbind_ok in H as (p1 & M1 & H). apply cores_WD_spec in M1 as [(F1 & _ & O1) MC].
    apply rbind_ok in H as (p2 & M2 & H).
    apply for_each_spec in M2 as (F2 & _ & A2 & O2); [|apply nodup_b; vm_compute; reflexivity|intros q k k' v _ _ NE; apply String.eqb_neq in NE; cbn [upd base comp]; rewrite attr_set, NE; reflexivity].
    apply finish_spec in H as (R & IN & QU & SP & ER & M). cbn [the flip base comp] in *.
    split; [|split; assumption]. split; [rewrite R, F2, F1; apply remnant_spec|]. split; [|split; [|split]].
    + intros n I. rewrite M by apart. specialize (A2 n I). apply sum_op in A2. rewrite F1, O1 in A2 by apart. exact A2.
    + intros n I. rewrite M, O2, O1 by apart. reflexivity.
    + destruct MC as (C1 & C2 & C3). assert (CE : forall n, In n (CORE ++ [ "center_gamma" ]) -> attr m n = attr (base p1) n) by (intros n I; rewrite M, O2 by apart; reflexivity).
      split; [intros Z; eapply centers_transfer; [exact CE|apply C1, Z]|]. split; [intros Z; eapply mixed_transfer; [exact CE|apply C2, Z]|intros Z; eapply centers_transfer; [exact CE|apply C3, Z]].
    + apply (rest_of StarWD B C m (base p2)); auto; [discriminate|]. intros n N. rewrite O2, O1 by apart. reflexivity.
  Qed.
  Lemma outcome_spec k B C m r : branch k B C = Ok (m, r) -> k <> StarCompact -> outcome k B C m r /\ state_ok k B m.
  Proof using Type.
    intros H NC. destruct k; [apply outcome_MainMain; exact H|apply outcome_PostMain; exact H|apply outcome_MainPost; exact H|apply outcome_PostPost; exact H|apply outcome_PostHeMain; exact H|apply outcome_HeMainPost; exact H|apply outcome_PostHe; exact H|apply outcome_HePost; exact H|apply outcome_HeHe; exact H|apply outcome_StarWD; exact H|congruence].
  Qed.
End Stages.
