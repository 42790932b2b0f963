(** Properties of the supernova step. *)
From Coq Require Import Reals String Bool List Lra.
From Verif Require Import PyBase MergeModel MergeProps KickModel KickProps StepSNModel.
From Verif Require OrbitModel.
Import ListNotations.
Open Scope string_scope.
Open Scope R_scope.
Open Scope list_scope.

Lemma rleb_spec x y : (Rleb x y = true <-> x <= y) /\ (Rleb x y = false <-> y < x).
Proof. unfold Rleb. destruct (Rle_dec x y); split; split; intros; try discriminate; try reflexivity; lra. Qed.
Lemma rltb_spec x y : (Rltb x y = true <-> x < y) /\ (Rltb x y = false <-> y <= x).
Proof. unfold Rltb. destruct (Rlt_dec x y); split; split; intros; try discriminate; try reflexivity; lra. Qed.

(** ** Specification *)
(** The star that collapses and its companion, by the event. *)
Definition exploding (e : string) (b : binary) : star := if String.eqb e "CC1" then star_1 b else star_2 b.
Definition companion (e : string) (b : binary) : star := if String.eqb e "CC1" then star_2 b else star_1 b.
Definition is_cc (e : string) : Prop := e = "CC1" \/ e = "CC2".
(** What neither the kick nor the bookkeeping changes of a star. *)
Definition same_body (x y : star) : Prop :=
  s_state y = s_state x /\ s_type y = s_type x /\ s_mass y = s_mass x /\ s_last_state y = s_last_state x /\ s_last_mass y = s_last_mass x
  /\ lg_mdot y = lg_mdot x /\ lg_system_mdot y = lg_system_mdot x.
Definition same_kick (x y : star) : Prop := s_kick y = s_kick x /\ s_phi y = s_phi x /\ s_theta y = s_theta x /\ s_mean y = s_mean x.
Definition same_tilts (x y : star) : Prop := tilt_first y = tilt_first x /\ tilt_second y = tilt_second x.
(** A binary without an orbit. *)
Definition unbound (b : binary) : Prop :=
  b_event b = None /\ b_sep b = VNaN /\ b_period b = VNaN /\ b_ecc b = VNaN /\ b_V b = Some (0, 0, 0) /\ b_mt_case b = Some "None" /\ b_first b = true.
Definition gone (state : string) : Prop := In state ["disrupted"; "initially_single_star"; "merged"].
Definition all_none (l : list (string * val)) : Prop := forall k v, In (k, v) l -> v = VNone.

Lemma clear_none l : all_none (clear l) /\ map fst (clear l) = map fst l.
Proof.
  unfold clear, all_none. split; [|rewrite map_map; reflexivity].
  intros k v H. apply in_map_iff in H. destruct H as (kv & E & _). congruence.
Qed.
Lemma cc_split (o : option string) : (exists e, o = Some e /\ is_cc e /\
    (match o with Some e => if String.eqb e "CC1" then Some true else if String.eqb e "CC2" then Some false else None | None => None end) = Some (String.eqb e "CC1"))
  \/ ((forall e, o = Some e -> ~ is_cc e) /\ (match o with Some e => if String.eqb e "CC1" then Some true else if String.eqb e "CC2" then Some false else None | None => None end) = None).
Proof.
  unfold is_cc. destruct o as [e|]; [|right; split; [discriminate|reflexivity]].
  destruct (String.eqb_spec e "CC1") as [-> |N1]; [left; exists "CC1"; repeat split; auto|].
  destruct (String.eqb_spec e "CC2") as [-> |N2]; [left; exists "CC2"; repeat split; auto|].
  right. split; [|reflexivity]. intros e' E [X|X]; congruence.
Qed.
Lemma same_refl x : same_body x x /\ same_kick x x /\ same_tilts x x.
Proof. unfold same_body, same_kick, same_tilts. repeat split. Qed.

Section Kick.
  Variable c : consts.
  Variable generate_kick : star -> option R -> option R -> result R.
  Variables draw_phi draw_cos draw_mean : R.
  Variable brentq : R -> R -> result R.
  Variable cfg : config.
  Notation kick_size := (kick_size generate_kick cfg).
  Notation draw_kick := (draw_kick generate_kick draw_phi draw_cos draw_mean cfg).
  Notation update_orbit := (update_orbit c brentq).
  Notation orbital_kick := (orbital_kick c generate_kick draw_phi draw_cos draw_mean brentq cfg).

  (** ** The kick *)
  (** The parameters of the distribution by type of supernova and kind of remnant, where no kick is given. *)
  Theorem C85_distribution : forall s,
    (forall v, s_kick s = Some v -> kick_size s = Ok v) /\
    (s_kick s = None ->
     (s_type s = Some "ECSN" -> kick_size s = generate_kick s (sigma_ECSN cfg) (mean_ECSN cfg)) /\
     (forall t, In t ["CCSN"; "PPISN"; "PISN"] -> s_type s = Some t ->
        (s_state s = "NS" -> kick_size s = generate_kick s (sigma_NS cfg) (mean_NS cfg)) /\
        (s_state s = "BH" -> kick_size s = generate_kick s (sigma_BH cfg) (mean_BH cfg)) /\
        (s_state s = "massless_remnant" -> kick_size s = generate_kick s None None) /\
        (~ In (s_state s) ["NS"; "BH"; "massless_remnant"] -> kick_size s = Raise ValueError)) /\
     ((forall t, s_type s = Some t -> ~ In t ["ECSN"; "CCSN"; "PPISN"; "PISN"]) -> kick_size s = Raise ValueError)).
  Proof using Type.
    intros s. unfold StepSNModel.kick_size. split; [intros v ->; reflexivity|]. intros ->. split; [|split].
    - intros ->. reflexivity.
    - intros t T ->. assert (X : String.eqb t "ECSN" = false) by (cbn in T; destruct T as [<-|[<-|[<-|[]]]]; reflexivity). rewrite X.
      apply mem_iff in T. rewrite T. repeat split.
      + intros ->. reflexivity.
      + intros ->. reflexivity.
      + intros ->. reflexivity.
      + intros N. cbn in N. destruct (String.eqb_spec (s_state s) "NS"); [exfalso; auto|]. destruct (String.eqb_spec (s_state s) "BH"); [exfalso; auto|].
        destruct (String.eqb_spec (s_state s) "massless_remnant"); [exfalso; auto|]. reflexivity.
    - intros N. destruct (s_type s) as [t|]; [|reflexivity]. specialize (N t eq_refl).
      destruct (String.eqb_spec t "ECSN"); [exfalso; cbn in N; auto|]. destruct (mem t _) eqn:M; [|reflexivity].
      apply mem_iff in M. exfalso. apply N. right. exact M.
  Qed.
  Lemma draw_ok s s' v p ct m : draw_kick s = Ok (s', (v, p, ct, m)) ->
    same_body s s' /\ same_tilts s s' /\ kick_size s = Ok v /\ s_kick s' = Some v /\ s_phi s' = Some p /\
    (s_phi s = Some p \/ (s_phi s = None /\ p = draw_phi)) /\
    (exists th, s_theta s' = Some th /\ ((s_theta s = Some th /\ ct = cos th) \/ (s_theta s = None /\ th = acos draw_cos /\ ct = draw_cos))) /\
    s_mean s' = Some (AFloat m) /\ (s_mean s = Some (AFloat m) \/ (s_mean s = None /\ m = draw_mean)).
  Proof using Type.
    unfold StepSNModel.draw_kick. intros H. apply rbind_ok in H. destruct H as (v' & KV & H). cbv zeta in H. apply rbind_ok in H. destruct H as (m' & M & H).
    injection H as <- <- <- <- <-.
    assert (SM : s_mean s = Some (AFloat m') \/ (s_mean s = None /\ m' = draw_mean)).
    { destruct (s_mean s) as [[x|]|]; try discriminate M; injection M as <-; auto. }
    unfold same_body, same_tilts. cbn. repeat split; try assumption.
    - destruct (s_phi s); auto.
    - destruct (s_theta s) as [t|]; eexists; split; try reflexivity; auto.
  Qed.
  Lemma draw_bad s : s_mean s = Some AOther -> exists e, draw_kick s = Raise e.
  Proof using Type. intros E. unfold StepSNModel.draw_kick. rewrite E. destruct (kick_size s); cbn; eauto. Qed.

  (** ** The orbit *)
  Definition orbit_of (e : string) (b : binary) (k : R * R * R * R) (E : R) (o : option orbit) : Prop :=
    let '(v, p, ct, m) := k in
    exists e0 A M0 M1 M2, b_ecc b = V e0 /\ b_sep b = V A /\ s_last_mass (exploding e b) = V M0 /\ s_mass (exploding e b) = V M1 /\ s_mass (companion e b) = V M2
      /\ brentq m e0 = Ok E /\ kick_orbit c (SN M0 M2 M1 A e0 E v ct p) = o.
  Lemma number_ok v x : number v = Ok x -> v = V x.
  Proof. destruct v; cbn; congruence. Qed.
  Definition with_exploding (e : string) (b : binary) (s : star) : binary := if String.eqb e "CC1" then with_stars b s (star_2 b) else with_stars b (star_1 b) s.
  (** The three ways of updating the binary. *)
  Definition updated (e : string) (b : binary) (k : R * R * R * R) (b' : binary) : Prop :=
    b_time b' = b_last_time b /\ b_event b' = None /\ b_first b' = true /\ b_mt_case b' = Some "None" /\ b_nearest b' = b_nearest b /\ b_inspiral b' = b_inspiral b
    /\ b_last_time b' = b_last_time b /\ b_last_ecc b' = b_last_ecc b
    /\ same_body (star_1 b) (star_1 b') /\ same_kick (star_1 b) (star_1 b') /\ same_body (star_2 b) (star_2 b') /\ same_kick (star_2 b) (star_2 b') /\
    ((gone (b_state b) /\ unbound b' /\ b_state b' = b_state b /\ same_tilts (star_1 b) (star_1 b') /\ same_tilts (star_2 b) (star_2 b') /\ b_rest b' = clear (b_rest b))
     \/ (~ gone (b_state b) /\ (s_state (star_1 b) = "massless_remnant" \/ s_state (star_2 b) = "massless_remnant") /\ unbound b' /\ b_state b' = "disrupted" /\ b_rest b' = b_rest b
         /\ (if b_first b then tilt_second (star_1 b') = VNaN /\ tilt_second (star_2 b') = VNaN else tilt_first (star_1 b') = VNaN /\ tilt_first (star_2 b') = VNaN))
     \/ (~ gone (b_state b) /\ s_state (star_1 b) <> "massless_remnant" /\ s_state (star_2 b) <> "massless_remnant" /\ b_rest b' = clear (b_rest b) /\ exists E,
          ((orbit_of e b k E None /\ unbound b' /\ b_state b' = "disrupted"
            /\ (if b_first b then tilt_second (star_1 b') = VNaN /\ tilt_second (star_2 b') = VNaN else tilt_first (star_1 b') = VNaN /\ tilt_first (star_2 b') = VNaN))
           \/ exists o, orbit_of e b k E (Some o) /\ b_state b' = "detached" /\ b_sep b' = V (o_separation o) /\ b_ecc b' = V (o_eccentricity o) /\ b_V b' = Some (o_V o)
              /\ orbital_period_from_separation (b_sep b') (s_mass (star_1 b)) (s_mass (star_2 b)) = Ok (b_period b')
              /\ exists e0, b_ecc b = V e0 /\
              if b_first b
              then tilt_first (star_1 b') = tilt_first (star_1 b) /\ tilt_first (star_2 b') = tilt_first (star_2 b) /\ tilt_second (exploding e b') = V (o_tilt o)
                   /\ b_nu1 b' = b_nu1 b /\ b_nu2 b' = Some (true_anomaly e0 E)
                   /\ combined (tilt_first (star_1 b)) (o_tilt o) (b_nu1 b) (true_anomaly e0 E) = Ok (tilt_second (companion e b'))
              else tilt_second (star_1 b') = tilt_second (star_1 b) /\ tilt_second (star_2 b') = tilt_second (star_2 b)
                   /\ tilt_first (star_1 b') = V (o_tilt o) /\ tilt_first (star_2 b') = V (o_tilt o) /\ b_nu1 b' = Some (true_anomaly e0 E) /\ b_nu2 b' = b_nu2 b))).
  Lemma updated_ok e b k b' : is_cc e -> update_orbit (String.eqb e "CC1") b k = Ok b' -> updated e b k b'.
  Proof using Type.
    intros CC. unfold StepSNModel.update_orbit, updated. destruct k as [[[v p] ct] m].
    destruct (mem (b_state b) ["disrupted"; "initially_single_star"; "merged"]) eqn:G.
    { intros H. injection H as <-. apply mem_iff in G. cbn [no_orbit b_time b_event b_first b_mt_case b_nearest b_inspiral b_last_time b_last_ecc star_1 star_2 b_state b_rest].
      pose proof (same_refl (star_1 b)) as S1. pose proof (same_refl (star_2 b)) as S2. do 8 (split; [reflexivity|]).
      destruct S1 as (? & ? & ?). destruct S2 as (? & ? & ?). do 4 (split; [assumption|]).
      left. split; [exact G|]. split; [unfold unbound; repeat split|]. split; [reflexivity|]. split; [assumption|]. split; [assumption|reflexivity]. }
    apply mem_not in G.
    assert (NT : forall st rest, same_body (star_1 b) (star_1 (no_orbit (nan_tilts b) st rest)) /\ same_kick (star_1 b) (star_1 (no_orbit (nan_tilts b) st rest))
      /\ same_body (star_2 b) (star_2 (no_orbit (nan_tilts b) st rest)) /\ same_kick (star_2 b) (star_2 (no_orbit (nan_tilts b) st rest))
      /\ (if b_first b then tilt_second (star_1 (no_orbit (nan_tilts b) st rest)) = VNaN /\ tilt_second (star_2 (no_orbit (nan_tilts b) st rest)) = VNaN
          else tilt_first (star_1 (no_orbit (nan_tilts b) st rest)) = VNaN /\ tilt_first (star_2 (no_orbit (nan_tilts b) st rest)) = VNaN)
      /\ unbound (no_orbit (nan_tilts b) st rest) /\ b_time (no_orbit (nan_tilts b) st rest) = b_last_time b /\ b_nearest (no_orbit (nan_tilts b) st rest) = b_nearest b
      /\ b_inspiral (no_orbit (nan_tilts b) st rest) = b_inspiral b /\ b_last_time (no_orbit (nan_tilts b) st rest) = b_last_time b /\ b_last_ecc (no_orbit (nan_tilts b) st rest) = b_last_ecc b).
    { intros st rest. unfold nan_tilts, no_orbit, unbound, same_body, same_kick. destruct (b_first b); cbn; repeat split. }
    destruct (String.eqb (s_state (star_1 b)) "massless_remnant" || String.eqb (s_state (star_2 b)) "massless_remnant") eqn:M.
    { intros H. injection H as <-. destruct (NT "disrupted" (b_rest b)) as (B1 & K1 & B2 & K2 & T & U & P1 & P2 & P3 & P4 & P5).
      apply orb_true_iff in M. rewrite !String.eqb_eq in M.
      split; [exact P1|]. do 3 (split; [reflexivity|]). do 4 (split; [assumption|]). do 4 (split; [assumption|]). right. left.
      split; [exact G|]. split; [exact M|]. split; [exact U|]. split; [reflexivity|]. split; [reflexivity|exact T]. }
    apply orb_false_iff in M. rewrite !String.eqb_neq in M. destruct M as [M1 M2].
    intros H. apply rbind_ok in H. destruct H as (e0 & He & H). apply rbind_ok in H. destruct H as (A & HA & H). apply rbind_ok in H. destruct H as (E & HE & H).
    apply rbind_ok in H. destruct H as (q0 & H0 & H). apply rbind_ok in H. destruct H as (q2 & H2 & H). apply rbind_ok in H. destruct H as (q1 & H1 & H).
    apply number_ok in He, HA, H0, H2, H1.
    assert (OF : orbit_of e b (v, p, ct, m) E (kick_orbit c (SN q0 q2 q1 A e0 E v ct p))).
    { exists e0, A, q0, q1, q2. unfold exploding, companion. repeat split; assumption || reflexivity. }
    destruct (kick_orbit c (SN q0 q2 q1 A e0 E v ct p)) as [o|].
    2: { injection H as <-. destruct (NT "disrupted" (clear (b_rest b))) as (B1 & K1 & B2 & K2 & T & U & P1 & P2 & P3 & P4 & P5).
      split; [exact P1|]. do 3 (split; [reflexivity|]). do 4 (split; [assumption|]). do 4 (split; [assumption|]). right. right.
      do 3 (split; [assumption|]). split; [reflexivity|]. exists E. left. split; [exact OF|]. split; [exact U|]. split; [reflexivity|exact T]. }
    cbv zeta in H. apply rbind_ok in H. destruct H as ([[[x y] n1] n2] & HQ & H). apply rbind_ok in H. destruct H as (P & HP & H). injection H as <-.
    cbn [b_time b_event b_first b_mt_case b_nearest b_inspiral b_last_time b_last_ecc star_1 star_2 b_state b_rest b_sep b_ecc b_V b_period b_nu1 b_nu2].
    do 8 (split; [reflexivity|]).
    destruct (b_first b) eqn:F.
    - apply rbind_ok in HQ. destruct HQ as (w & W & HQ). injection HQ as <- <- <- <-.
      assert (SB : same_body (star_1 b) (if String.eqb e "CC1" then with_second (star_1 b) (V (o_tilt o)) else with_second (star_1 b) w)
        /\ same_kick (star_1 b) (if String.eqb e "CC1" then with_second (star_1 b) (V (o_tilt o)) else with_second (star_1 b) w)
        /\ same_body (star_2 b) (if String.eqb e "CC1" then with_second (star_2 b) w else with_second (star_2 b) (V (o_tilt o)))
        /\ same_kick (star_2 b) (if String.eqb e "CC1" then with_second (star_2 b) w else with_second (star_2 b) (V (o_tilt o)))).
      { unfold same_body, same_kick. destruct (String.eqb e "CC1"); cbn; repeat split. }
      destruct SB as (S1 & S2 & S3 & S4). do 4 (split; [assumption|]). right. right. do 3 (split; [assumption|]). split; [reflexivity|]. exists E. right. exists o.
      split; [exact OF|]. do 4 (split; [reflexivity|]).
      split. { destruct S1 as (_ & _ & X1 & _). destruct S3 as (_ & _ & X2 & _). rewrite X1, X2 in HP. exact HP. }
      exists e0. split; [exact He|]. unfold exploding, companion. cbn [star_1 star_2].
      destruct (String.eqb e "CC1"); cbn; repeat split; assumption.
    - injection HQ as <- <- <- <-. do 4 (split; [unfold same_body, same_kick; cbn; repeat split|]). right. right. do 3 (split; [assumption|]). split; [reflexivity|].
      exists E. right. exists o. split; [exact OF|]. do 4 (split; [reflexivity|]). split; [exact HP|]. exists e0. split; [exact He|]. cbn. repeat split.
  Qed.
  Lemma kick_ok e b b' : is_cc e -> b_event b = Some e -> s_type (exploding e b) <> Some "WD" -> orbital_kick b = Ok b' ->
    exists s' v p ct m, draw_kick (exploding e b) = Ok (s', (v, p, ct, m)) /\ In (s_last_state (exploding e b)) STATES_CC
      /\ updated e (with_exploding e b s') (v, p, ct, m) b'.
  Proof using Type.
    intros CC HE NW. unfold StepSNModel.orbital_kick.
    destruct (cc_split (b_event b)) as [(e' & E' & CC' & ->)|[N _]]; [|exfalso; exact (N e HE CC)].
    assert (e' = e) by congruence. subst e'. fold (exploding e b).
    assert (X : (match s_type (exploding e b) with Some t => String.eqb t "WD" | None => false end) = false).
    { destruct (s_type (exploding e b)) as [t|]; [|reflexivity]. apply String.eqb_neq. congruence. }
    rewrite X. destruct (mem (s_last_state (exploding e b)) STATES_CC) eqn:M; [|discriminate]. apply mem_iff in M. cbn [negb].
    intros H. apply rbind_ok in H. destruct H as ([s' [[[v p] ct] m]] & D & H). exists s', v, p, ct, m. split; [exact D|]. split; [exact M|].
    apply updated_ok; [exact CC|]. unfold with_exploding. destruct (String.eqb e "CC1"); exact H.
  Qed.
  Lemma with_exploding_spec e b s : is_cc e -> let b1 := with_exploding e b s in
    exploding e b1 = s /\ companion e b1 = companion e b /\ b_state b1 = b_state b /\ b_rest b1 = b_rest b /\ b_first b1 = b_first b /\ b_ecc b1 = b_ecc b /\ b_sep b1 = b_sep b
    /\ b_nu1 b1 = b_nu1 b /\ b_nu2 b1 = b_nu2 b /\ b_nearest b1 = b_nearest b /\ b_last_time b1 = b_last_time b /\ b_last_ecc b1 = b_last_ecc b /\ b_inspiral b1 = b_inspiral b
    /\ star_1 b1 = (if String.eqb e "CC1" then s else star_1 b) /\ star_2 b1 = (if String.eqb e "CC1" then star_2 b else s).
  Proof using Type. intros CC. unfold with_exploding, exploding, companion. destruct (String.eqb e "CC1"); cbn; repeat split. Qed.
  Lemma pick e b b' (P : star -> star -> Prop) : P (star_1 b) (star_1 b') -> P (star_2 b) (star_2 b') -> P (exploding e b) (exploding e b') /\ P (companion e b) (companion e b').
  Proof using Type. unfold exploding, companion. destruct (String.eqb e "CC1"); auto. Qed.

  (** Given attributes of the kick are used and kept, the others are drawn and stored; those of the companion do not change. *)
  Theorem C85_kick : forall e b b', is_cc e -> b_event b = Some e -> s_type (exploding e b) <> Some "WD" -> orbital_kick b = Ok b' ->
    let s := exploding e b in let s' := exploding e b' in
    In (s_last_state s) ["H-rich_Core_C_depleted"; "H-rich_Core_He_depleted"; "stripped_He_Core_He_depleted"; "stripped_He_Core_C_depleted";
      "stripped_He_non_burning"; "H-rich_non_burning"; "H-rich_Shell_H_burning"; "accreted_He_Shell_H_burning"; "accreted_He_non_burning"] /\
    (exists v, kick_size s = Ok v /\ s_kick s' = Some v) /\
    s_phi s' = Some (match s_phi s with Some p => p | None => draw_phi end) /\
    s_theta s' = Some (match s_theta s with Some t => t | None => acos draw_cos end) /\
    (s_mean s = None /\ s_mean s' = Some (AFloat draw_mean) \/ exists m, s_mean s = Some (AFloat m) /\ s_mean s' = Some (AFloat m)) /\
    same_body s s' /\ same_body (companion e b) (companion e b') /\ same_kick (companion e b) (companion e b').
  Proof using Type.
    intros e b b' CC HE NW H. destruct (kick_ok e b b' CC HE NW H) as (s1 & v & p & ct & m & D & L & U).
    destruct (draw_ok _ _ _ _ _ _ D) as (B & _ & KS & K1 & K2 & K3 & (th & K4 & K5) & K6 & K7).
    destruct U as (_ & _ & _ & _ & _ & _ & _ & _ & B1 & X1 & B2 & X2 & _).
    destruct (pick e _ _ same_body B1 B2) as [BE BC]. destruct (pick e _ _ same_kick X1 X2) as [XE XC].
    destruct (with_exploding_spec e b s1 CC) as (W1 & W2 & _). rewrite W1 in BE, XE. rewrite W2 in BC, XC. destruct XE as (Y1 & Y2 & Y3 & Y4).
    cbv zeta. split; [exact L|]. split; [exists v; split; [exact KS|congruence]|].
    split. { rewrite Y2, K2. destruct K3 as [-> |[-> ->]]; reflexivity. }
    split. { rewrite Y3, K4. destruct K5 as [[-> _]|(-> & -> & _)]; reflexivity. }
    split. { rewrite Y4, K6. destruct K7 as [-> |[-> ->]]; [right; exists m; auto|left; auto]. }
    split; [|split; assumption].
    destruct B as (Q1 & Q2 & Q3 & Q4 & Q5 & Q6 & Q7). destruct BE as (R1 & R2 & R3 & R4 & R5 & R6 & R7). unfold same_body. repeat split; congruence.
  Qed.
  (** The binary that had no orbit, or loses it with a remnant without mass. *)
  Theorem C85_no_orbit : forall e b b', is_cc e -> b_event b = Some e -> s_type (exploding e b) <> Some "WD" -> orbital_kick b = Ok b' ->
    (gone (b_state b) -> unbound b' /\ b_state b' = b_state b /\ all_none (b_rest b')
       /\ same_tilts (star_1 b) (star_1 b') /\ same_tilts (star_2 b) (star_2 b')) /\
    (~ gone (b_state b) -> s_state (star_1 b) = "massless_remnant" \/ s_state (star_2 b) = "massless_remnant" ->
       unbound b' /\ b_state b' = "disrupted" /\ b_rest b' = b_rest b
       /\ (b_first b = false -> tilt_first (star_1 b') = VNaN /\ tilt_first (star_2 b') = VNaN)
       /\ (b_first b = true -> tilt_second (star_1 b') = VNaN /\ tilt_second (star_2 b') = VNaN)) /\
    b_time b' = b_last_time b /\ b_nearest b' = b_nearest b /\ b_inspiral b' = b_inspiral b /\ b_first b' = true.
  Proof using Type.
    intros e b b' CC HE NW H. destruct (kick_ok e b b' CC HE NW H) as (s1 & v & p & ct & m & D & L & U).
    destruct (draw_ok _ _ _ _ _ _ D) as (B & T & _). destruct U as (U1 & _ & U2 & _ & U3 & U4 & _ & _ & B1 & X1 & B2 & X2 & U).
    destruct (with_exploding_spec e b s1 CC) as (W1 & W2 & W3 & W4 & W5 & W6 & W7 & W8 & W9 & W10 & W11 & W12 & W13 & W14 & W15).
    rewrite W3, W4, W5 in U. rewrite W11 in U1. rewrite W10 in U3. rewrite W13 in U4.
    assert (ST : s_state (star_1 (with_exploding e b s1)) = s_state (star_1 b) /\ s_state (star_2 (with_exploding e b s1)) = s_state (star_2 b)
      /\ same_tilts (star_1 b) (star_1 (with_exploding e b s1)) /\ same_tilts (star_2 b) (star_2 (with_exploding e b s1))).
    { rewrite W14, W15. unfold exploding in B, T. destruct B as (B & _). pose proof (same_refl (star_1 b)) as (_ & _ & R1). pose proof (same_refl (star_2 b)) as (_ & _ & R2).
      destruct (String.eqb e "CC1"); repeat split; assumption || apply R1 || apply R2 || apply T. }
    destruct ST as (S1 & S2 & S3 & S4). rewrite S1, S2 in U.
    split; [|split; [|repeat split; assumption]].
    - intros Gn. destruct U as [(_ & U & E & T1 & T2 & RE)|[(N & _)|(N & _)]]; [|contradiction|contradiction].
      split; [exact U|]. split; [exact E|]. split; [rewrite RE; apply clear_none|].
      destruct T1 as [T1 T1']. destruct T2 as [T2 T2']. destruct S3 as [S3 S3']. destruct S4 as [S4 S4']. unfold same_tilts. repeat split; congruence.
    - intros Gn Ms. destruct U as [(N & _)|[(_ & _ & U & E & RE & T1)|(_ & N1 & N2 & _)]]; [contradiction| |exfalso; destruct Ms; contradiction].
      split; [exact U|]. split; [exact E|]. split; [exact RE|]. split; intros F; rewrite F in T1; exact T1.
  Qed.
  (** The orbit that a bound binary gets, or its disruption, is that of the two masses, the kick and the orbit before. *)
  Theorem C85_orbit : forall e b b', is_cc e -> b_event b = Some e -> s_type (exploding e b) <> Some "WD" -> orbital_kick b = Ok b' ->
    ~ gone (b_state b) -> s_state (star_1 b) <> "massless_remnant" -> s_state (star_2 b) <> "massless_remnant" ->
    exists e0 A M0 M1 M2 v p th m E, b_ecc b = V e0 /\ b_sep b = V A /\ s_last_mass (exploding e b) = V M0 /\ s_mass (exploding e b) = V M1 /\ s_mass (companion e b) = V M2
      /\ s_kick (exploding e b') = Some v /\ s_phi (exploding e b') = Some p /\ s_theta (exploding e b') = Some th /\ s_mean (exploding e b') = Some (AFloat m) /\ brentq m e0 = Ok E
      /\ all_none (b_rest b') /\ b_event b' = None /\ b_mt_case b' = Some "None" /\ b_time b' = b_last_time b /\ b_first b' = true
      /\ (-1 <= draw_cos <= 1 -> match kick_orbit c (SN M0 M2 M1 A e0 E v (cos th) p) with
          | None => unbound b' /\ b_state b' = "disrupted"
              /\ (b_first b = false -> tilt_first (star_1 b') = VNaN /\ tilt_first (star_2 b') = VNaN)
              /\ (b_first b = true -> tilt_second (star_1 b') = VNaN /\ tilt_second (star_2 b') = VNaN)
          | Some o => b_state b' = "detached" /\ b_sep b' = V (o_separation o) /\ b_ecc b' = V (o_eccentricity o) /\ b_V b' = Some (o_V o)
              /\ b_period b' = V (OrbitModel.orbital_period_from_separation (o_separation o) (if String.eqb e "CC1" then M1 else M2) (if String.eqb e "CC1" then M2 else M1))
              /\ (b_first b = false -> tilt_first (star_1 b') = V (o_tilt o) /\ tilt_first (star_2 b') = V (o_tilt o) /\ b_nu1 b' = Some (true_anomaly e0 E)
                    /\ tilt_second (star_1 b') = tilt_second (star_1 b) /\ tilt_second (star_2 b') = tilt_second (star_2 b) /\ b_nu2 b' = b_nu2 b)
              /\ (b_first b = true -> tilt_first (star_1 b') = tilt_first (star_1 b) /\ tilt_first (star_2 b') = tilt_first (star_2 b) /\ b_nu1 b' = b_nu1 b /\ b_nu2 b' = Some (true_anomaly e0 E)
                    /\ tilt_second (exploding e b') = V (o_tilt o)
                    /\ exists n1, b_nu1 b = Some n1 /\
                       ((tilt_first (star_1 b) = VNaN /\ tilt_second (companion e b') = VNaN) \/
                        exists t1, tilt_first (star_1 b) = V t1 /\
                          tilt_second (companion e b') = V (acos (cos t1 * cos (o_tilt o) - cos (true_anomaly e0 E - n1) * sin t1 * sin (o_tilt o)))))
          end).
  Proof using Type.
    intros e b b' CC HE NW H NG NM1 NM2. destruct (kick_ok e b b' CC HE NW H) as (s1 & v & p & ct & m & D & L & U).
    destruct (draw_ok _ _ _ _ _ _ D) as (B & T & KS & K1 & K2 & K3 & (th & K4 & K5) & K6 & K7). destruct U as (U1 & U0 & U2 & U5 & U3 & U4 & _ & _ & B1 & X1 & B2 & X2 & U).
    destruct (with_exploding_spec e b s1 CC) as (W1 & W2 & W3 & W4 & W5 & W6 & W7 & W8 & W9 & W10 & W11 & W12 & W13 & W14 & W15).
    rewrite W3, W4, W5, W6, W8, W9 in U. rewrite W11 in U1.
    assert (ST : s_state (star_1 (with_exploding e b s1)) = s_state (star_1 b) /\ s_state (star_2 (with_exploding e b s1)) = s_state (star_2 b)
      /\ same_tilts (star_1 b) (star_1 (with_exploding e b s1)) /\ same_tilts (star_2 b) (star_2 (with_exploding e b s1))).
    { rewrite W14, W15. unfold exploding in B, T. destruct B as (B & _). pose proof (same_refl (star_1 b)) as (_ & _ & R1). pose proof (same_refl (star_2 b)) as (_ & _ & R2).
      destruct (String.eqb e "CC1"); repeat split; assumption || apply R1 || apply R2 || apply T. }
    destruct ST as (S1 & S2 & [S3 S3'] & [S4 S4']). rewrite S1, S2, S3, S4, S3', S4' in U.
    destruct (pick e _ _ same_kick X1 X2) as [XE _]. rewrite W1 in XE. destruct XE as (Y1 & Y2 & Y3 & Y4).
    destruct U as [(N & _)|[(_ & N & _)|(_ & _ & _ & RE & E & U)]]; [contradiction|exfalso; destruct N; contradiction|].
    assert (OF : exists o, orbit_of e (with_exploding e b s1) (v, p, ct, m) E o) by (destruct U as [(O & _)|(o & O & _)]; eauto).
    destruct OF as (o0 & OF). pose proof OF as OF'. destruct OF' as (e0 & A & M0 & M1 & M2 & O1 & O2 & O3 & O4 & O5 & O6 & O7).
    rewrite W6 in O1. rewrite W7 in O2. rewrite W1 in O3, O4. rewrite W2 in O5. destruct B as (_ & _ & B3 & _ & B5 & _). rewrite B5 in O3. rewrite B3 in O4.
    exists e0, A, M0, M1, M2, v, p, th, m, E. do 5 (split; [assumption|]). split; [congruence|]. split; [congruence|]. split; [congruence|]. split; [congruence|]. split; [assumption|].
    split; [rewrite RE; apply clear_none|]. do 4 (split; [assumption|]).
    intros RG. assert (CT : cos th = ct). { destruct K5 as [[_ ->]|(_ & -> & ->)]; [reflexivity|apply cos_acos; exact RG]. }
    rewrite CT, O7.
    assert (UQ : forall o1, orbit_of e (with_exploding e b s1) (v, p, ct, m) E o1 -> o1 = o0).
    { intros o1 (e1 & A' & M0' & M1' & M2' & P1 & P2 & P3 & P4 & P5 & P6 & P7). rewrite W6 in P1. rewrite W7 in P2. rewrite W1 in P3, P4. rewrite W2 in P5. rewrite B5 in P3. rewrite B3 in P4.
      rewrite O1 in P1. rewrite O2 in P2. rewrite O3 in P3. rewrite O4 in P4. rewrite O5 in P5. injection P1 as <-. injection P2 as <-. injection P3 as <-. injection P4 as <-. injection P5 as <-. congruence. }
    destruct U as [(O & UB & SD & TT)|(o & O & SD & Q1 & Q2 & Q3 & Q4 & e1 & E1 & TT)].
    - rewrite <- (UQ _ O). split; [exact UB|]. split; [exact SD|]. split; intros F; rewrite F in TT; exact TT.
    - rewrite <- (UQ _ O). split; [exact SD|]. split; [exact Q1|]. split; [exact Q2|]. split; [exact Q3|].
      rewrite O1 in E1. injection E1 as <-.
      split.
      { assert (MM : s_mass (star_1 (with_exploding e b s1)) = V (if String.eqb e "CC1" then M1 else M2) /\ s_mass (star_2 (with_exploding e b s1)) = V (if String.eqb e "CC1" then M2 else M1)).
        { rewrite W14, W15. unfold companion in O5. unfold exploding in O4, B3. destruct (String.eqb e "CC1"); split; congruence. }
        destruct MM as [MA MB]. rewrite MA, MB, Q1 in Q4. unfold orbital_period_from_separation in Q4. cbn [arg rbind] in Q4. destruct (pos _ && pos _); [|discriminate]. injection Q4 as <-. reflexivity. }
      split; intros F; rewrite F in TT; [destruct TT as (T1 & T2 & T3 & T4 & T5 & T6); auto 10|].
      destruct TT as (T1 & T2 & T3 & T4 & T5 & T6). do 5 (split; [assumption|]).
      unfold combined in T6. destruct (b_nu1 b) as [n1|]; [|discriminate]. exists n1. split; [reflexivity|].
      destruct (tilt_first (star_1 b)) as [| |t1]; cbn [arg rbind] in T6; [discriminate|left; split; [reflexivity|congruence]|].
      right. exists t1. split; [reflexivity|]. rewrite C84_combined in T6. congruence.
  Qed.
  (** A star that became a white dwarf widens the orbit as slow mass loss of that star does. *)
  Theorem C85_white_dwarf : forall e b b' m m0 m2 a, is_cc e -> b_event b = Some e -> s_type (exploding e b) = Some "WD" ->
    s_mass (exploding e b) = V m -> s_last_mass (exploding e b) = V m0 -> s_mass (companion e b) = V m2 -> b_sep b = V a -> 0 < m + m2 -> 0 < m0 + m2 -> 0 < a ->
    orbital_kick b = Ok b' ->
    (exists a', b_sep b' = V a' /\ a' * (m + m2) = a * (m0 + m2) /\ b_period b' = V (OrbitModel.orbital_period_from_separation a' (if String.eqb e "CC1" then m else m2) (if String.eqb e "CC1" then m2 else m)))
    /\ b_ecc b' = b_last_ecc b /\ b_V b' = b_V b /\ b_event b' = None /\ b_time b' = b_last_time b /\ b_mt_case b' = Some "None" /\ b_first b' = b_first b /\ all_none (b_rest b')
    /\ star_1 b' = star_1 b /\ star_2 b' = star_2 b
    /\ (gone (b_state b) -> b_state b' = b_state b) /\ (~ gone (b_state b) -> b_state b' = "detached").
  Proof using Type.
    intros e b b' m m0 m2 a CC HE W Hm H0 H2 Ha P1 P0 PA. unfold StepSNModel.orbital_kick.
    destruct (cc_split (b_event b)) as [(e' & E' & CC' & ->)|[N _]]; [|exfalso; exact (N e HE CC)].
    assert (e' = e) by congruence. subst e'. fold (exploding e b). rewrite W. cbn [String.eqb Ascii.eqb Bool.eqb]. unfold white_dwarf. fold (exploding e b). fold (companion e b).
    rewrite Hm, H0, H2, Ha. unfold separation_evol_wind_loss at 1. cbn [arg rbind]. unfold pos at 1 2 3.
    rewrite (proj2 (proj1 (rltb_spec _ _)) P1), (proj2 (proj1 (rltb_spec _ _)) P0), (proj2 (proj1 (rltb_spec _ _)) PA). cbn [andb rbind].
    intros H. apply rbind_ok in H. destruct H as (P & HP & H).
    assert (MM : s_mass (star_1 b) = V (if String.eqb e "CC1" then m else m2) /\ s_mass (star_2 b) = V (if String.eqb e "CC1" then m2 else m)).
    { unfold companion in H2. unfold exploding in Hm. destruct (String.eqb e "CC1"); split; congruence. }
    destruct MM as [MA MB]. rewrite MA, MB in HP. unfold orbital_period_from_separation in HP. cbn [arg rbind] in HP. destruct (pos _ && pos _); [|discriminate]. injection HP as <-.
    injection H as <-. cbn [b_sep b_ecc b_V b_event b_time b_mt_case b_first b_rest star_1 star_2 b_state b_period].
    split. { exists (a * (m0 + m2) / (m + m2)). split; [reflexivity|]. split; [field; lra|reflexivity]. }
    do 6 (split; [reflexivity|]). split; [apply clear_none|]. do 2 (split; [reflexivity|]).
    split; intros Gn; unfold gone in Gn.
    - apply mem_iff in Gn. unfold mem in Gn. cbn [existsb] in Gn. rewrite Gn. reflexivity.
    - apply mem_not in Gn. unfold mem in Gn. cbn [existsb] in Gn. rewrite Gn. reflexivity.
  Qed.
End Kick.

(** ** The step *)
(** The kind of a compact object by its mass. *)
Definition by_mass (m : R) (st : string) : Prop :=
  (m <= 0 /\ st = "massless_remnant") \/ (0 < m < 11 / 10 /\ st = "WD") \/ (11 / 10 <= m <= 5 / 2 /\ st = "NS") \/ (5 / 2 < m /\ st = "BH").
Definition compact (st : string) : Prop := In st ["WD"; "NS"; "BH"].

Section TheStep.
  Variable c : consts.
  Variable generate_kick : star -> option R -> option R -> result R.
  Variables draw_phi draw_cos draw_mean : R.
  Variable brentq : R -> R -> result R.
  Variable cfg : config.
  Variable collapse : star -> result (string + star).
  Variable normal_state : star -> result string.
  Variable inspiral_timescale : val -> val -> val -> val -> result val.
  Notation orbital_kick := (orbital_kick c generate_kick draw_phi draw_cos draw_mean brentq cfg).
  Notation finish := (finish inspiral_timescale).
  Notation update_state := (update_state normal_state).
  Notation step := (step c generate_kick draw_phi draw_cos draw_mean brentq cfg collapse normal_state inspiral_timescale).

  Theorem C80_event : forall b o, step b = Ok o -> exists e, b_event b = Some e /\ is_cc e.
  Proof using Type.
    intros b o. unfold StepSNModel.step. destruct (cc_split (b_event b)) as [(e & E & CC & _)|[_ ->]]; [eauto|discriminate].
  Qed.
  Theorem C80_other_event : forall b, (forall e, b_event b = Some e -> ~ is_cc e) -> step b = Raise ValueError.
  Proof using Type.
    intros b N. unfold StepSNModel.step. destruct (cc_split (b_event b)) as [(e & E & CC & _)|[_ ->]]; [exfalso; exact (N e E CC)|reflexivity].
  Qed.
  (** The collapse fails: the binary is marked and nothing else changes. *)
  Theorem C80_failed : forall e b msg, is_cc e -> b_event b = Some e -> collapse (exploding e b) = Ok (inl msg) ->
    exists b', step b = Ok (Failed b' msg) /\ b_state b' = "ERR" /\ b_event b' = Some "FAILED"
      /\ star_1 b' = star_1 b /\ star_2 b' = star_2 b /\ b_sep b' = b_sep b /\ b_period b' = b_period b /\ b_ecc b' = b_ecc b /\ b_V b' = b_V b /\ b_time b' = b_time b /\ b_rest b' = b_rest b.
  Proof using Type.
    intros e b msg CC HE CL. unfold StepSNModel.step. destruct (cc_split (b_event b)) as [(e' & E' & CC' & ->)|[N _]]; [|exfalso; exact (N e HE CC)].
    assert (e' = e) by congruence. subst e'. fold (exploding e b). rewrite CL. cbn [rbind]. exists (failed b). repeat split.
  Qed.

  Lemma step_ok e b b' : is_cc e -> b_event b = Some e -> step b = Ok (Done b') ->
    exists s' x y b1, collapse (exploding e b) = Ok (inr s') /\ update_state (if String.eqb e "CC1" then s' else reset_other (companion e b)) = Ok x
      /\ update_state (if String.eqb e "CC1" then reset_other (companion e b) else s') = Ok y
      /\ (if kick cfg then orbital_kick else no_kick) (with_stars b x y) = Ok b1 /\ finish b1 = Ok b'.
  Proof using Type.
    intros CC HE. unfold StepSNModel.step. destruct (cc_split (b_event b)) as [(e' & E' & CC' & ->)|[N _]]; [|exfalso; exact (N e HE CC)].
    assert (e' = e) by congruence. subst e'. fold (exploding e b). fold (companion e b).
    intros H. apply rbind_ok in H. destruct H as ([msg|s'] & CL & H); [discriminate|]. apply rbind_ok in H. destruct H as (x & X & H). apply rbind_ok in H. destruct H as (y & Y & H).
    apply rbind_ok in H. destruct H as (b1 & K & H). apply rbind_ok in H. destruct H as (b2 & F & H). assert (b2 = b') by congruence. subst b2.
    exists s', x, y, b1. repeat split; assumption.
  Qed.
  Lemma finish_spec b b' : finish b = Ok b' -> star_1 b' = star_1 b /\ star_2 b' = star_2 b /\ b_state b' = b_state b /\ b_sep b' = b_sep b /\ b_ecc b' = b_ecc b /\ b_period b' = b_period b /\ b_V b' = b_V b.
  Proof using Type.
    unfold StepSNModel.finish. destruct (_ || _); [intros H; injection H as <-; repeat split|]. destruct (_ && _); [intros H; apply rbind_ok in H; destruct H as (t & _ & H); injection H as <-; repeat split|].
    destruct (_ && _); [intros H; injection H as <-; repeat split|]. destruct (_ && _); intros H; injection H as <-; repeat split.
  Qed.
  (** The kick and the last part of the step leave the bodies of the stars alone. *)
  Lemma kick_bodies b b' : orbital_kick b = Ok b' -> same_body (star_1 b) (star_1 b') /\ same_body (star_2 b) (star_2 b') /\ b_event b' = None.
  Proof using Type.
    intros H. destruct (cc_split (b_event b)) as [(e & E & CC & X)|[_ X]]; [|unfold StepSNModel.orbital_kick in H; rewrite X in H; discriminate].
    assert (D : s_type (exploding e b) = Some "WD" \/ s_type (exploding e b) <> Some "WD").
    { destruct (s_type (exploding e b)) as [t|]; [|right; discriminate]. destruct (String.eqb_spec t "WD") as [-> |N]; [left; reflexivity|right; congruence]. }
    destruct D as [W|W].
    - unfold StepSNModel.orbital_kick in H. rewrite X in H. fold (exploding e b) in H. rewrite W in H. cbn [String.eqb Ascii.eqb Bool.eqb] in H. unfold white_dwarf in H.
      apply rbind_ok in H. destruct H as (A & _ & H). apply rbind_ok in H. destruct H as (P & _ & H). injection H as <-. cbn [star_1 star_2 b_event]. repeat split.
    - destruct (kick_ok c generate_kick draw_phi draw_cos draw_mean brentq cfg e b b' CC E W H) as (s1 & v & p & ct & m & D & L & U).
      destruct (draw_ok _ _ _ _ _ _ _ _ _ _ _ D) as (B & _). destruct U as (_ & U0 & _ & _ & _ & _ & _ & _ & B1 & _ & B2 & _).
      destruct (with_exploding_spec e b s1 CC) as (_ & _ & _ & _ & _ & _ & _ & _ & _ & _ & _ & _ & _ & W14 & W15). rewrite W14 in B1. rewrite W15 in B2.
      unfold exploding in B. split; [|split; [|exact U0]].
      + destruct (String.eqb e "CC1"); [|exact B1]. unfold same_body in *. decompose [and] B. decompose [and] B1. repeat split; congruence.
      + destruct (String.eqb e "CC1"); [exact B2|]. unfold same_body in *. decompose [and] B. decompose [and] B2. repeat split; congruence.
  Qed.
  Lemma no_kick_bodies b b' : no_kick b = Ok b' -> same_body (star_1 b) (star_1 b') /\ same_body (star_2 b) (star_2 b') /\ b_event b' = None.
  Proof using Type.
    unfold no_kick. intros H. apply rbind_ok in H. destruct H as (A & _ & H). apply rbind_ok in H. destruct H as (P & _ & H). injection H as <-. cbn [star_1 star_2 b_event]. repeat split.
  Qed.
  Lemma bodies e b b' : is_cc e -> b_event b = Some e -> step b = Ok (Done b') ->
    exists s' x y b1, collapse (exploding e b) = Ok (inr s') /\ update_state s' = Ok x /\ update_state (reset_other (companion e b)) = Ok y
      /\ same_body x (exploding e b') /\ same_body y (companion e b') /\ finish b1 = Ok b' /\ b_event b1 = None
      /\ (if kick cfg then orbital_kick else no_kick) (if String.eqb e "CC1" then with_stars b x y else with_stars b y x) = Ok b1.
  Proof using Type.
    intros CC HE H. destruct (step_ok e b b' CC HE H) as (s' & x & y & b1 & CL & X & Y & K & F). exists s'.
    assert (BB : same_body x (star_1 b1) /\ same_body y (star_2 b1) /\ b_event b1 = None).
    { destruct (kick cfg); [apply (kick_bodies (with_stars b x y))|apply (no_kick_bodies (with_stars b x y))]; exact K. }
    destruct BB as (B1 & B2 & B3). destruct (finish_spec _ _ F) as (F1 & F2 & _). unfold exploding, companion. rewrite F1, F2. fold (exploding e b). fold (companion e b).
    destruct (String.eqb e "CC1"); [exists x, y, b1|exists y, x, b1]; repeat split; assumption || apply B1 || apply B2.
  Qed.
  Lemma update_state_spec s x : update_state s = Ok x -> same_kick s x /\ same_tilts s x /\ s_mass x = s_mass s /\ s_type x = s_type s /\ s_last_state x = s_last_state s /\ s_last_mass x = s_last_mass s
    /\ lg_mdot x = lg_mdot s /\ lg_system_mdot x = lg_system_mdot s
    /\ (s_state s = "massless_remnant" -> s_state x = "massless_remnant")
    /\ (compact (s_state s) -> s_last_state s = "WD" \/ s_state s = "WD" -> s_state x = "WD")
    /\ (forall m, compact (s_state s) -> s_last_state s <> "WD" -> s_state s <> "WD" -> s_mass s = V m -> by_mass m (s_state x))
    /\ (compact (s_state s) -> s_last_state s <> "WD" -> s_state s <> "WD" -> s_mass s = VNaN \/ s_mass s = VNone -> s_state x = "massless_remnant")
    /\ (s_state s <> "massless_remnant" -> ~ compact (s_state s) -> normal_state s = Ok (s_state x)).
  Proof using Type.
    unfold StepSNModel.update_state. destruct (String.eqb_spec (s_state s) "massless_remnant") as [E|NM].
    { intros H. injection H as <-. assert (NC : ~ compact (s_state s)) by (rewrite E; unfold compact; cbn; intros [X|[X|[X|[]]]]; discriminate X).
      pose proof (same_refl s) as (_ & A & B). repeat (split; [assumption || reflexivity || (intros; contradiction) || idtac|]); intros; contradiction || assumption. }
    destruct (mem (s_state s) ["WD"; "NS"; "BH"]) eqn:M.
    - intros H. injection H as <-. apply mem_iff in M. cbn [with_state s_state s_mass s_type s_last_state s_last_mass lg_mdot lg_system_mdot].
      split; [repeat split|]. split; [repeat split|]. do 6 (split; [reflexivity|]). split; [intros; contradiction|].
      assert (F : s_last_state s <> "WD" -> s_state s <> "WD" -> String.eqb (s_last_state s) "WD" || String.eqb (s_state s) "WD" = false).
      { intros N1 N2. apply orb_false_iff. rewrite !String.eqb_neq. split; assumption. }
      split; [intros _ [X|X]; rewrite X; [reflexivity|rewrite orb_true_r; reflexivity]|].
      split.
      { intros m _ N1 N2 ->. rewrite F by assumption. unfold by_mass. unfold Rleb, Rltb. destruct (Rle_dec m 0); [left; auto|]. destruct (Rlt_dec m (11 / 10)); [right; left; repeat split; lra|].
        destruct (Rle_dec m (5 / 2)); [right; right; left; repeat split; lra|right; right; right; split; [lra|reflexivity]]. }
      split; [intros _ N1 N2 [-> | ->]; rewrite F by assumption; reflexivity|]. intros _ N. exfalso. exact (N M).
    - apply mem_not in M. intros H. apply rbind_ok in H. destruct H as (z & Z & H). injection H as <-. cbn [with_state s_state s_mass s_type s_last_state s_last_mass lg_mdot lg_system_mdot].
      split; [repeat split|]. split; [repeat split|]. do 6 (split; [reflexivity|]). split; [intros; contradiction|]. split; [intros; contradiction|]. split; [intros; contradiction|]. split; [intros; contradiction|]. intros _ _. exact Z.
  Qed.
  (** The state of the collapsed star is inferred again from its mass, whatever the collapse decided, unless that is a white dwarf. *)
  Theorem C80_remnant : forall e b b' s' m, is_cc e -> b_event b = Some e -> step b = Ok (Done b') ->
    collapse (exploding e b) = Ok (inr s') -> s_mass s' = V m -> s_last_state s' <> "WD" ->
    s_mass (exploding e b') = V m /\
    (s_state s' = "WD" -> s_state (exploding e b') = "WD") /\
    (In (s_state s') ["NS"; "BH"] -> by_mass m (s_state (exploding e b'))) /\
    (s_state s' = "massless_remnant" -> s_state (exploding e b') = "massless_remnant").
  Proof using Type.
    intros e b b' s' m CC HE H CL MS NL. destruct (bodies e b b' CC HE H) as (s1 & x & y & b1 & CL' & X & Y & BX & BY & _). rewrite CL in CL'. assert (s1 = s') by congruence. subst s1.
    destruct (update_state_spec _ _ X) as (_ & _ & U1 & _ & _ & _ & _ & _ & U2 & U3 & U4 & _). destruct BX as (B1 & _ & B3 & _). rewrite B1, B3, U1.
    split; [exact MS|]. split; [intros E; apply U3; [rewrite E; cbn; auto|right; exact E]|]. split; [|exact U2].
    intros I. apply U4; [cbn in I; cbn; destruct I as [<-|[<-|[]]]; auto|exact NL|cbn in I; intros E; rewrite E in I; destruct I as [I|[I|[]]]; discriminate I|exact MS].
  Qed.
  (** The companion: the mass stays, the mass-loss rates are erased, the state is inferred again. *)
  Theorem C80_companion : forall e b b', is_cc e -> b_event b = Some e -> step b = Ok (Done b') ->
    let o := companion e b in let o' := companion e b' in
    s_mass o' = s_mass o /\ s_type o' = s_type o /\ lg_mdot o' = VNone /\ lg_system_mdot o' = VNone /\
    (s_state o = "massless_remnant" -> s_state o' = "massless_remnant") /\
    (compact (s_state o) -> s_last_state o = "WD" \/ s_state o = "WD" -> s_state o' = "WD") /\
    (forall m, compact (s_state o) -> s_last_state o <> "WD" -> s_state o <> "WD" -> s_mass o = V m -> by_mass m (s_state o')).
  Proof using Type.
    intros e b b' CC HE H. destruct (bodies e b b' CC HE H) as (s1 & x & y & b1 & CL' & X & Y & BX & BY & _). cbv zeta.
    destruct (update_state_spec _ _ Y) as (_ & _ & U1 & U2 & _ & _ & U3 & U4 & U5 & U6 & U7 & _). cbn [reset_other s_mass s_type lg_mdot lg_system_mdot s_state s_last_state] in *.
    destruct BY as (B1 & B2 & B3 & _ & _ & B4 & B5). rewrite B1, B2, B3, B4, B5. repeat split; assumption.
  Qed.
  (** The event after the step: the collapse of the other star if it is carbon depleted next to a compact object in a binary. *)
  Theorem C80_next_event : forall b b', step b = Ok (Done b') -> forall e', b_event b' = Some e' <->
    b_state b' <> "disrupted" /\
    ((e' = "CC2" /\ In (s_state (star_1 b')) ["BH"; "NS"; "WD"] /\ In (s_state (star_2 b')) ["H-rich_Core_C_depleted"; "stripped_He_Core_C_depleted"]) \/
     (e' = "CC1" /\ In (s_state (star_1 b')) ["H-rich_Core_C_depleted"; "stripped_He_Core_C_depleted"] /\ In (s_state (star_2 b')) ["BH"; "NS"; "WD"])).
  Proof using Type.
    intros b b' H e'. destruct (C80_event b _ H) as (e & HE & CC). destruct (bodies e b b' CC HE H) as (s1 & x & y & b1 & _ & _ & _ & _ & _ & F & EV & _).
    destruct (finish_spec _ _ F) as (F1 & F2 & F3 & _). rewrite F1, F2, F3. unfold StepSNModel.finish in F. clear F1 F2 F3.
    assert (AB : forall st, In st ["BH"; "NS"; "WD"] -> In st ["H-rich_Core_C_depleted"; "stripped_He_Core_C_depleted"] -> False).
    { intros st I J. cbn in I, J. destruct I as [<-|[<-|[<-|[]]]]; destruct J as [J|[J|[]]]; discriminate J. }
    assert (AM : In "massless_remnant" ["BH"; "NS"; "WD"] -> False) by (cbn; intros [X|[X|[X|[]]]]; discriminate X).
    assert (AM' : In "massless_remnant" ["H-rich_Core_C_depleted"; "stripped_He_Core_C_depleted"] -> False) by (cbn; intros [X|[X|[]]]; discriminate X).
    destruct (_ || _ || _) eqn:D in F.
    { assert (b_event b' = None) by (injection F as <-; exact EV). rewrite H0. split; [discriminate|]. intros (N & I). exfalso.
      apply orb_true_iff in D. destruct D as [D|D]; [apply orb_true_iff in D; destruct D as [D|D]; apply String.eqb_eq in D; [contradiction|]|apply String.eqb_eq in D];
      rewrite D in I; destruct I as [(_ & I & J)|(_ & I & J)]; auto. }
    apply orb_false_iff in D. destruct D as [D D3]. apply orb_false_iff in D. destruct D as [D1 D2]. apply String.eqb_neq in D1.
    destruct (mem (s_state (star_1 b1)) STATES_CO && mem (s_state (star_2 b1)) STATES_CO) eqn:C1.
    { apply rbind_ok in F. destruct F as (t & _ & F). assert (b_event b' = None) by (injection F as <-; exact EV). rewrite H0. split; [discriminate|]. intros (_ & I). exfalso.
      apply andb_true_iff in C1. rewrite !mem_iff in C1. destruct C1 as [C1 C2]. destruct I as [(_ & I & J)|(_ & I & J)]; [exact (AB _ C2 J)|exact (AB _ C1 I)]. }
    destruct (mem (s_state (star_1 b1)) STATES_CO && mem (s_state (star_2 b1)) STATES_C_DEPLETED) eqn:C2.
    { injection F as <-. cbn [with_event b_event]. apply andb_true_iff in C2. rewrite !mem_iff in C2. destruct C2 as [C2 C3]. split.
      - intros X. injection X as <-. split; [exact D1|]. left. split; [reflexivity|]. split; assumption.
      - intros (_ & [(-> & _)|(_ & I & _)]); [reflexivity|exfalso; exact (AB _ C2 I)]. }
    destruct (mem (s_state (star_1 b1)) STATES_C_DEPLETED && mem (s_state (star_2 b1)) STATES_CO) eqn:C3.
    { injection F as <-. cbn [with_event b_event]. apply andb_true_iff in C3. rewrite !mem_iff in C3. destruct C3 as [C3 C4]. split.
      - intros X. injection X as <-. split; [exact D1|]. right. split; [reflexivity|]. split; assumption.
      - intros (_ & [(_ & _ & I)|(-> & _)]); [exfalso; exact (AB _ C4 I)|reflexivity]. }
    injection F as <-. rewrite EV. split; [discriminate|]. intros (_ & [(_ & I & J)|(_ & I & J)]); exfalso.
    - apply andb_false_iff in C2. rewrite !mem_not in C2. destruct C2 as [C2|C2]; [exact (C2 I)|exact (C2 J)].
    - apply andb_false_iff in C3. rewrite !mem_not in C3. destruct C3 as [C3|C3]; [exact (C3 I)|exact (C3 J)].
  Qed.
  (** The time to the merger of a pair of compact objects is that of the new orbit. *)
  Theorem C80_inspiral : forall b b', step b = Ok (Done b') ->
    (b_state b' = "disrupted" \/ s_state (star_1 b') = "massless_remnant" \/ s_state (star_2 b') = "massless_remnant" -> b_inspiral b' = VNaN) /\
    (b_state b' <> "disrupted" -> compact (s_state (star_1 b')) -> compact (s_state (star_2 b')) ->
       inspiral_timescale (s_mass (star_1 b')) (s_mass (star_2 b')) (b_sep b') (b_ecc b') = Ok (b_inspiral b')).
  Proof using Type.
    intros b b' H. destruct (C80_event b _ H) as (e & HE & CC). destruct (bodies e b b' CC HE H) as (s1 & x & y & b1 & _ & _ & _ & _ & _ & F & EV & _).
    destruct (finish_spec _ _ F) as (F1 & F2 & F3 & F4 & F5 & _). rewrite F1, F2, F3, F4, F5. unfold StepSNModel.finish in F. clear F1 F2 F3 F4 F5. split.
    - intros D. assert (X : String.eqb (b_state b1) "disrupted" || String.eqb (s_state (star_1 b1)) "massless_remnant" || String.eqb (s_state (star_2 b1)) "massless_remnant" = true).
      { rewrite !orb_true_iff, !String.eqb_eq. destruct D as [D|[D|D]]; auto. }
      rewrite X in F. injection F as <-. reflexivity.
    - intros N I J. assert (NM : forall st, compact st -> String.eqb st "massless_remnant" = false) by (intros st K; cbn in K; destruct K as [<-|[<-|[<-|[]]]]; reflexivity).
      assert (CO : forall st, compact st -> mem st STATES_CO = true) by (intros st K; cbn in K; destruct K as [<-|[<-|[<-|[]]]]; reflexivity).
      rewrite (NM _ I), (NM _ J), (proj2 (String.eqb_neq _ _) N), (CO _ I), (CO _ J) in F. cbn [orb andb] in F. apply rbind_ok in F. destruct F as (t & T & F). injection F as <-. exact T.
  Qed.
  (** With the kick switched off, the orbit follows the mass that star 1 lost; the state becomes detached whatever it was. *)
  Theorem C80_no_kick : forall e b b' m1 m0 m2 a, kick cfg = false -> is_cc e -> b_event b = Some e -> step b = Ok (Done b') ->
    s_mass (star_1 b') = V m1 -> s_last_mass (star_1 b') = V m0 -> s_mass (star_2 b') = V m2 -> b_sep b = V a -> 0 < m1 + m2 -> 0 < m0 + m2 -> 0 < a ->
    b_state b' = "detached" /\ exists a', b_sep b' = V a' /\ a' * (m1 + m2) = a * (m0 + m2) /\ b_ecc b' = b_ecc b.
  Proof using Type.
    intros e b b' m1 m0 m2 a NK CC HE H H1 H0 H2 HA P1 P0 PA. destruct (step_ok e b b' CC HE H) as (s' & x & y & b1 & _ & _ & _ & K & F). rewrite NK in K.
    destruct (no_kick_bodies _ _ K) as (B1 & B2 & _). destruct (finish_spec _ _ F) as (F1 & F2 & F3 & F4 & F5 & _). rewrite F1 in H1, H0. rewrite F2 in H2. rewrite F3, F4, F5.
    destruct B1 as (_ & _ & B1 & _ & B1' & _). destruct B2 as (_ & _ & B2 & _). cbn [with_stars star_1 star_2] in *. unfold no_kick in K. cbn [with_stars star_1 star_2 b_sep] in K.
    rewrite <- B1, <- B1', <- B2, H1, H0, H2, HA in K. unfold separation_evol_wind_loss in K. cbn [arg rbind] in K. unfold pos at 1 2 3 in K.
    rewrite (proj2 (proj1 (rltb_spec _ _)) P1), (proj2 (proj1 (rltb_spec _ _)) P0), (proj2 (proj1 (rltb_spec _ _)) PA) in K. cbn [andb rbind] in K.
    apply rbind_ok in K. destruct K as (P & _ & K). injection K as <-. cbn [b_state b_sep b_ecc]. split; [reflexivity|]. exists (a * (m0 + m2) / (m1 + m2)). split; [reflexivity|]. split; [field; lra|reflexivity].
  Qed.
End TheStep.

(** ** What does not hold *)
Section Refuted.
  Variable c : consts.
  Variable generate_kick : star -> option R -> option R -> result R.
  Variables draw_phi draw_cos draw_mean : R.
  Variable brentq : R -> R -> result R.
  Variable cfg : config.
  Variable collapse : star -> result (string + star).
  Variable normal_state : star -> result string.
  Variable inspiral_timescale : val -> val -> val -> val -> result val.
  Notation orbital_kick := (orbital_kick c generate_kick draw_phi draw_cos draw_mean brentq cfg).
  Notation step := (step c generate_kick draw_phi draw_cos draw_mean brentq cfg collapse normal_state inspiral_timescale).

  (** The limit between neutron stars and black holes of the collapse (max_NS_mass) does not survive the step: 2.5 is used. *)
  Theorem C80_max_NS_mass_refuted : forall e b b' s' m, is_cc e -> b_event b = Some e -> step b = Ok (Done b') ->
    collapse (exploding e b) = Ok (inr s') -> s_mass s' = V m -> s_last_state s' <> "WD" ->
    (s_state s' = "BH" -> 11 / 10 <= m <= 5 / 2 -> s_state (exploding e b') = "NS") /\
    (s_state s' = "NS" -> 5 / 2 < m -> s_state (exploding e b') = "BH").
  Proof using Type.
    intros e b b' s' m CC HE H CL MS NL. destruct (C80_remnant _ _ _ _ _ _ _ _ _ _ e b b' s' m CC HE H CL MS NL) as (_ & _ & B & _).
    split; intros E L; rewrite E in B; specialize (B ltac:(cbn; auto)); unfold by_mass in B; destruct B as [(X & _)|[(X & _)|[(X & Y)|(X & Y)]]]; try exact Y; lra.
  Qed.
  (** A neutron star below 1.1 becomes a white dwarf before the kick is drawn, for which the kick of a core collapse does not exist. *)
  Theorem C80_light_remnant_refuted : forall e b s' m, is_cc e -> b_event b = Some e -> kick cfg = true ->
    collapse (exploding e b) = Ok (inr s') -> s_state s' = "NS" -> s_type s' = Some "CCSN" -> s_kick s' = None -> s_mass s' = V m -> 0 < m < 11 / 10 -> s_last_state s' <> "WD" ->
    exists x, step b = Raise x.
  Proof using Type.
    intros e b s' m CC HE K CL ST TY NK MS L NL. destruct (step b) as [[b'|b' msg]|x] eqn:S; [| |eauto]; exfalso.
    - destruct (bodies _ _ _ _ _ _ _ _ _ _ e b b' CC HE S) as (s1 & x & y & b1 & CL' & X & Y & _ & _ & _ & _ & KK). rewrite CL in CL'. assert (s1 = s') by congruence. subst s1.
      destruct (update_state_spec _ _ _ X) as ((U1 & _) & _ & _ & U2 & _ & _ & _ & _ & _ & _ & U3 & _).
      specialize (U3 m ltac:(rewrite ST; cbn; auto) NL ltac:(rewrite ST; discriminate) MS). unfold by_mass in U3.
      assert (SX : s_state x = "WD") by (destruct U3 as [(Z & _)|[(_ & Z)|[(Z & _)|(Z & _)]]]; [lra|exact Z|lra|lra]).
      rewrite K in KK. set (b0 := if String.eqb e "CC1" then with_stars b x y else with_stars b y x) in *.
      assert (EX : exploding e b0 = x /\ b_event b0 = Some e) by (unfold b0, exploding; destruct (String.eqb e "CC1"); cbn; split; congruence). destruct EX as [EX EB].
      assert (TX : s_type x = Some "CCSN") by congruence.
      assert (TW : s_type (exploding e b0) <> Some "WD") by (rewrite EX, TX; discriminate).
      destruct (kick_ok _ _ _ _ _ _ _ e b0 b1 CC EB TW KK) as (s2 & v & p & ct & mm & D & _).
      destruct (draw_ok _ _ _ _ _ _ _ _ _ _ _ D) as (_ & _ & KS & _). rewrite EX in KS.
      destruct (C85_distribution generate_kick cfg x) as [_ Q].
      destruct (Q ltac:(congruence)) as (_ & Q' & _). destruct (Q' "CCSN" ltac:(cbn; auto) TX) as (_ & _ & _ & Q4). rewrite SX in Q4.
      rewrite Q4 in KS; [discriminate|]. cbn. intros [Z|[Z|[Z|[]]]]; discriminate Z.
    - unfold StepSNModel.step in S. destruct (cc_split (b_event b)) as [(e' & E' & CC' & Z)|[N _]]; [|exact (N e HE CC)]. rewrite Z in S.
      assert (e' = e) by congruence. subst e'. fold (exploding e b) in S. rewrite CL in S. cbn [rbind] in S.
      apply rbind_ok in S. destruct S as (x & _ & S). apply rbind_ok in S. destruct S as (y & _ & S). apply rbind_ok in S. destruct S as (b1 & _ & S). apply rbind_ok in S. destruct S as (b2 & _ & S). discriminate S.
  Qed.
  (** Without kicks the collapse of star 2 leaves the separation as it was, whatever mass it lost, and a disrupted binary is declared detached. *)
  Theorem C80_no_kick_refuted : forall b b' m1 m2 a, kick cfg = false -> b_event b = Some "CC2" -> step b = Ok (Done b') ->
    s_mass (star_1 b') = V m1 -> s_last_mass (star_1 b') = V m1 -> s_mass (star_2 b') = V m2 -> b_sep b = V a -> 0 < m1 + m2 -> 0 < a ->
    b_sep b' = V a /\ b_state b' = "detached".
  Proof using Type.
    intros b b' m1 m2 a NK HE H H1 H0 H2 HA P PA.
    destruct (C80_no_kick _ _ _ _ _ _ _ _ _ _ "CC2" b b' m1 m1 m2 a NK (or_intror eq_refl) HE H H1 H0 H2 HA P P PA) as (S & a' & A1 & A2 & _).
    split; [|exact S]. rewrite A1. f_equal. apply Rmult_eq_reg_r in A2; [exact A2|lra].
  Qed.
  (** The systemic velocity after a supernova does not depend on the one before: that of a first supernova is lost. *)
  Definition with_V (b : binary) (v : option vec) : binary :=
    Binary (star_1 b) (star_2 b) (b_state b) (b_event b) (b_time b) (b_sep b) (b_period b) (b_ecc b) v (b_mt_case b) (b_rest b) (b_nearest b) (b_first b) (b_nu1 b) (b_nu2 b) (b_inspiral b) (b_last_time b) (b_last_ecc b).
  Theorem C85_velocity_refuted : forall e b v, is_cc e -> b_event b = Some e -> s_type (exploding e b) <> Some "WD" -> orbital_kick (with_V b v) = orbital_kick b.
  Proof using Type.
    intros e b v CC HE NW. unfold StepSNModel.orbital_kick. cbn [with_V b_event].
    destruct (cc_split (b_event b)) as [(e' & E' & CC' & ->)|[N _]]; [|exfalso; exact (N e HE CC)]. assert (e' = e) by congruence. subst e'.
    cbn [with_V star_1 star_2]. fold (exploding e b).
    assert (X : (match s_type (exploding e b) with Some t => String.eqb t "WD" | None => false end) = false).
    { destruct (s_type (exploding e b)) as [t|]; [|reflexivity]. apply String.eqb_neq. congruence. }
    rewrite X. destruct (negb _); [reflexivity|]. destruct (draw_kick _ _ _ _ _ _) as [[s' [[[p q] r] t]]|]; [|reflexivity]. cbn [rbind].
    destruct b as [st1 st2 bst bev bti bse bpe bec bv bmt bre bne bfi bn1 bn2 bin blt ble]. unfold with_V, with_stars, update_orbit, nan_tilts, no_orbit. cbn [star_1 star_2 b_state b_event b_time b_sep b_period b_ecc b_V b_mt_case b_rest b_nearest b_first b_nu1 b_nu2 b_inspiral b_last_time b_last_ecc].
    destruct (String.eqb e "CC1"), bfi; reflexivity.
  Qed.
  (** A binary whose first supernova is only declared by its flag never survives the second: it is disrupted or the step raises. *)
  Theorem C85_flag_refuted : forall e b b', is_cc e -> b_event b = Some e -> s_type (exploding e b) <> Some "WD" -> -1 <= draw_cos <= 1 -> orbital_kick b = Ok b' ->
    ~ gone (b_state b) -> b_first b = true -> b_nu1 b = None -> b_state b' = "disrupted".
  Proof using Type.
    intros e b b' CC HE NW RG H NG F N1.
    destruct (String.eqb_spec (s_state (star_1 b)) "massless_remnant") as [M|M1]; [apply (C85_no_orbit _ _ _ _ _ _ _ e b b' CC HE NW H); auto|].
    destruct (String.eqb_spec (s_state (star_2 b)) "massless_remnant") as [M|M2]; [apply (C85_no_orbit _ _ _ _ _ _ _ e b b' CC HE NW H); auto|].
    destruct (C85_orbit _ _ _ _ _ _ _ e b b' CC HE NW H NG M1 M2) as (e0 & A & q0 & q1 & q2 & v & p & th & m & E & _ & _ & _ & _ & _ & _ & _ & _ & _ & _ & _ & _ & _ & _ & _ & Q).
    specialize (Q RG). destruct (kick_orbit c _) as [o|]; [|apply Q]. destruct Q as (_ & _ & _ & _ & _ & _ & Q). destruct (Q F) as (_ & _ & _ & _ & _ & n & X & _). congruence.
  Qed.
End Refuted.

(** ** Examples: a star of mass 2 next to one of mass 1 becomes a neutron star of mass 3/2, without a kick *)
Definition CFG (k : bool) : config := Config k (Some 20) None (Some 265) None (Some 265) None.
Definition BODY (st : string) (t : option string) (m : R) (last : string) (m0 : R) : star := Star st t (V m) last (V m0) None None None None VNone VNone (V 1) (V 1).
Definition PAIR (st : string) (ev : string) (s1 s2 : star) (f : bool) (n1 : option R) : binary :=
  Binary s1 s2 st (Some ev) (V 0) (V 1) (V 1) (V 0) (Some (7, 0, 0)) None [("rl_relative_overflow_1", V 1)] VNone f n1 None VNone (V 3) (V 0).
Definition NEUTRON : star := BODY "NS" (Some "CCSN") (3 / 2) "stripped_He_Core_C_depleted" 2.
Definition DEPLETED : star := BODY "stripped_He_Core_C_depleted" None 2 "stripped_He_Core_C_depleted" 2.
Definition DWARF : star := BODY "H-rich_Core_H_burning" None 1 "H-rich_Core_H_burning" 1.
Notation KICK := (orbital_kick UNITS (fun _ _ _ => Ok 0) 0 0 0 (fun m _ => Ok m) (CFG true)).
Lemma blaauw2 : exists o, kick_orbit UNITS (SN 2 1 (3 / 2) 1 0 0 0 0 0) = Some o /\ o_separation o = 5 / 4 /\ o_eccentricity o = 1 / 5 /\ o_tilt o = 0.
Proof.
  assert (W : valid UNITS (SN 2 1 (3 / 2) 1 0 0 0 0 0)) by (pose proof PI_RGT_0; unfold valid, UNITS; cbn; lra).
  destruct (C83_mass_loss UNITS (SN 2 1 (3 / 2) 1 0 0 0 0 0) W eq_refl eq_refl ltac:(cbn; lra)) as [_ H]. cbn in H. destruct (H ltac:(lra)) as (o & Q & A & B & D & _).
  exists o. split; [exact Q|]. split; [rewrite A; field|]. split; [rewrite B; field|exact D].
Qed.
Lemma pos_true x : 0 < x -> pos x = true.
Proof. intros H. apply rltb_spec. exact H. Qed.
Definition KICKED (s : star) : star := with_kick s (Some 0) (Some 0) (Some (acos 0)) (Some (AFloat 0)).
(** A first supernova, of star 1. *)
Example first_example : exists b', KICK (PAIR "detached" "CC1" NEUTRON DWARF false None) = Ok b' /\ b_sep b' = V (5 / 4) /\ b_ecc b' = V (1 / 5) /\ b_state b' = "detached" /\ b_event b' = None
  /\ tilt_first (star_1 b') = V 0 /\ tilt_first (star_2 b') = V 0 /\ s_kick (star_1 b') = Some 0 /\ s_phi (star_1 b') = Some 0 /\ b_first b' = true /\ b_rest b' = [("rl_relative_overflow_1", VNone)].
Proof.
  destruct blaauw2 as (o & Q & A & B & D).
  assert (EV : KICK (PAIR "detached" "CC1" NEUTRON DWARF false None) = match kick_orbit UNITS (SN 2 1 (3 / 2) 1 0 0 0 0 0) with
    | None => Ok (no_orbit (nan_tilts (PAIR "detached" "CC1" (KICKED NEUTRON) DWARF false None)) "disrupted" [("rl_relative_overflow_1", VNone)])
    | Some o => rbind (orbital_period_from_separation (V (o_separation o)) (V (3 / 2)) (V 1)) (fun P =>
        Ok (Binary (with_first (KICKED NEUTRON) (V (o_tilt o))) (with_first DWARF (V (o_tilt o))) "detached" None (V 3) (V (o_separation o)) P (V (o_eccentricity o)) (Some (o_V o)) (Some "None")
              [("rl_relative_overflow_1", VNone)] VNone true (Some (true_anomaly 0 0)) None VNone (V 3) (V 0)))
    end) by reflexivity.
  rewrite EV, Q. unfold orbital_period_from_separation. cbn [arg rbind]. rewrite A, !pos_true by lra. cbn [andb rbind].
  eexists. split; [reflexivity|]. cbn. rewrite B, D. repeat split.
Qed.
(** A second supernova, of star 2, after one of star 1 with a tilt of 1: the tilt of star 1 stays, its velocity of 7 is gone. *)
Definition TILTED : star := Star "NS" (Some "CCSN") (V 1) "NS" (V 1) None None None None (V 1) VNone VNone VNone.
Example second_example : exists b' v, KICK (PAIR "detached" "CC2" TILTED NEUTRON true (Some 0)) = Ok b' /\ b_sep b' = V (5 / 4) /\ tilt_second (star_2 b') = V 0
  /\ tilt_second (star_1 b') = V (acos (cos 1)) /\ tilt_first (star_1 b') = V 1 /\ b_V b' = Some (0, v, 0).
Proof.
  destruct blaauw2 as (o & Q & A & B & D).
  assert (W : valid UNITS (SN 2 1 (3 / 2) 1 0 0 0 0 0)) by (pose proof PI_RGT_0; unfold valid, UNITS; cbn; lra).
  destruct (C83_mass_loss UNITS (SN 2 1 (3 / 2) 1 0 0 0 0 0) W eq_refl eq_refl ltac:(cbn; lra)) as [_ H]. destruct (H ltac:(cbn; lra)) as (o2 & Q2 & _ & _ & _ & OV).
  assert (o2 = o) by congruence. subst o2.
  assert (EV : KICK (PAIR "detached" "CC2" TILTED NEUTRON true (Some 0)) = match kick_orbit UNITS (SN 2 1 (3 / 2) 1 0 0 0 0 0) with
    | None => Ok (no_orbit (nan_tilts (PAIR "detached" "CC2" TILTED (KICKED NEUTRON) true (Some 0))) "disrupted" [("rl_relative_overflow_1", VNone)])
    | Some o => rbind (rbind (combined (V 1) (o_tilt o) (Some 0) (true_anomaly 0 0)) (fun w => Ok (with_second TILTED w, with_second (KICKED NEUTRON) (V (o_tilt o)), Some 0, Some (true_anomaly 0 0)))) (fun q => let '(x, y, n1, n2) := q in
        rbind (orbital_period_from_separation (V (o_separation o)) (s_mass x) (s_mass y)) (fun P =>
        Ok (Binary x y "detached" None (V 3) (V (o_separation o)) P (V (o_eccentricity o)) (Some (o_V o)) (Some "None")
              [("rl_relative_overflow_1", VNone)] VNone true n1 n2 VNone (V 3) (V 0))))
    end) by reflexivity.
  rewrite EV, Q. unfold combined. cbn [arg rbind]. rewrite C84_combined. cbn [rbind with_second s_mass TILTED KICKED with_kick NEUTRON BODY]. unfold orbital_period_from_separation. cbn [arg rbind]. rewrite A, !pos_true by lra. cbn [andb rbind].
  eexists. eexists. split; [reflexivity|]. cbn. rewrite D, OV. rewrite cos_0, sin_0. split; [reflexivity|]. split; [reflexivity|]. split; [|split; reflexivity]. f_equal. f_equal. ring.
Qed.
(** Without the true anomaly of the first supernova the step raises. *)
Example flag_example : KICK (PAIR "detached" "CC2" TILTED NEUTRON true None) = Raise AttributeError.
Proof.
  destruct blaauw2 as (o & Q & _).
  assert (EV : KICK (PAIR "detached" "CC2" TILTED NEUTRON true None) = match kick_orbit UNITS (SN 2 1 (3 / 2) 1 0 0 0 0 0) with
    | None => Ok (no_orbit (nan_tilts (PAIR "detached" "CC2" TILTED (KICKED NEUTRON) true None)) "disrupted" [("rl_relative_overflow_1", VNone)])
    | Some o => Raise AttributeError end) by reflexivity.
  rewrite EV, Q. reflexivity.
Qed.
(** A binary that was disrupted before, and one whose star leaves nothing. *)
Example gone_example : exists b', KICK (PAIR "disrupted" "CC2" TILTED NEUTRON true None) = Ok b' /\ b_state b' = "disrupted" /\ b_sep b' = VNaN /\ tilt_first (star_1 b') = V 1.
Proof. eexists. split; [reflexivity|]. repeat split. Qed.
Example massless_example : exists b', KICK (PAIR "detached" "CC1" (BODY "massless_remnant" (Some "PISN") 0 "stripped_He_Core_C_depleted" 60) DWARF false None) = Ok b'
  /\ b_state b' = "disrupted" /\ tilt_first (star_1 b') = VNaN /\ b_rest b' = [("rl_relative_overflow_1", V 1)].
Proof. eexists. split; [reflexivity|]. repeat split. Qed.
(** Star 2 becomes a white dwarf: slow mass loss from 2 to 1 next to a star of 1. *)
Example dwarf_example : exists b', KICK (PAIR "detached" "CC2" DWARF (BODY "WD" (Some "WD") 1 "stripped_He_Core_He_depleted" 2) false None) = Ok b' /\ b_sep b' = V (1 * (2 + 1) / (1 + 1)) /\ b_state b' = "detached".
Proof.
  assert (EV : KICK (PAIR "detached" "CC2" DWARF (BODY "WD" (Some "WD") 1 "stripped_He_Core_He_depleted" 2) false None)
    = white_dwarf false (PAIR "detached" "CC2" DWARF (BODY "WD" (Some "WD") 1 "stripped_He_Core_He_depleted" 2) false None)) by reflexivity.
  rewrite EV. unfold white_dwarf. cbn [PAIR star_1 star_2 s_mass s_last_mass BODY DWARF b_sep]. unfold separation_evol_wind_loss. cbn [arg rbind]. rewrite !pos_true by lra. cbn [andb rbind].
  unfold orbital_period_from_separation. cbn [arg rbind]. rewrite !pos_true by lra. cbn [andb rbind]. eexists. split; [reflexivity|]. split; reflexivity.
Qed.
(** The whole step: the collapse makes a black hole of 3/2, the step a neutron star; the companion is about to collapse as well. *)
Definition MAKE (st : string) (m : R) (s : star) : result (string + star) := Ok (inr (BODY st (Some "CCSN") m (s_last_state s) 2)).
Definition STEP (k : bool) (st : string) (m : R) : binary -> result outcome :=
  step UNITS (fun _ _ _ => Ok 0) 0 0 0 (fun m _ => Ok m) (CFG k) (MAKE st m) (fun s => Ok (s_state s)) (fun _ _ a _ => Ok a).
Definition DEPLETED1 : star := BODY "stripped_He_Core_C_depleted" None 1 "stripped_He_Core_C_depleted" 1.
Lemma rleb_t x y : x <= y -> Rleb x y = true. Proof. apply rleb_spec. Qed.
Lemma rleb_f x y : y < x -> Rleb x y = false. Proof. apply rleb_spec. Qed.
Lemma rltb_t x y : x < y -> Rltb x y = true. Proof. apply rltb_spec. Qed.
Lemma rltb_f x y : y <= x -> Rltb x y = false. Proof. apply rltb_spec. Qed.
Lemma make_ns : update_state (fun s => Ok (s_state s)) (BODY "BH" (Some "CCSN") (3 / 2) "stripped_He_Core_C_depleted" 2) = Ok NEUTRON.
Proof.
  unfold update_state. cbn [BODY s_state String.eqb Ascii.eqb Bool.eqb mem existsb orb s_last_state s_mass].
  rewrite (rleb_f (3 / 2) 0), (rltb_f (3 / 2) (11 / 10)), (rleb_t (3 / 2) (5 / 2)) by lra. reflexivity.
Qed.
Example step_example : exists b', STEP true "BH" (3 / 2) (PAIR "detached" "CC1" DEPLETED DEPLETED1 false None) = Ok (Done b')
  /\ s_state (star_1 b') = "NS" /\ b_sep b' = V (5 / 4) /\ b_event b' = Some "CC2" /\ lg_mdot (star_2 b') = VNone.
Proof.
  destruct blaauw2 as (o & Q & A & B & D).
  assert (EV : STEP true "BH" (3 / 2) (PAIR "detached" "CC1" DEPLETED DEPLETED1 false None)
    = rbind (update_state (fun s => Ok (s_state s)) (BODY "BH" (Some "CCSN") (3 / 2) "stripped_He_Core_C_depleted" 2)) (fun x =>
      rbind (KICK (PAIR "detached" "CC1" x (reset_other DEPLETED1) false None)) (fun b' => rbind (finish (fun _ _ a _ => Ok a) b') (fun b'' => Ok (Done b''))))) by reflexivity.
  rewrite EV, make_ns. cbn [rbind].
  assert (EK : KICK (PAIR "detached" "CC1" NEUTRON (reset_other DEPLETED1) false None) = match kick_orbit UNITS (SN 2 1 (3 / 2) 1 0 0 0 0 0) with
    | None => Ok (no_orbit (nan_tilts (PAIR "detached" "CC1" (KICKED NEUTRON) (reset_other DEPLETED1) false None)) "disrupted" [("rl_relative_overflow_1", VNone)])
    | Some o => rbind (orbital_period_from_separation (V (o_separation o)) (V (3 / 2)) (V 1)) (fun P =>
        Ok (Binary (with_first (KICKED NEUTRON) (V (o_tilt o))) (with_first (reset_other DEPLETED1) (V (o_tilt o))) "detached" None (V 3) (V (o_separation o)) P (V (o_eccentricity o)) (Some (o_V o)) (Some "None")
              [("rl_relative_overflow_1", VNone)] VNone true (Some (true_anomaly 0 0)) None VNone (V 3) (V 0)))
    end) by reflexivity.
  rewrite EK, Q. unfold orbital_period_from_separation. cbn [arg rbind]. rewrite A, !pos_true by lra. cbn [andb rbind]. eexists. split; [reflexivity|]. repeat split.
Qed.
(** A light neutron star: the step raises. *)
Example light_example : exists x, STEP true "NS" 1 (PAIR "detached" "CC1" DEPLETED DWARF false None) = Raise x.
Proof. unfold STEP. apply C80_light_remnant_refuted with (e := "CC1") (s' := BODY "NS" (Some "CCSN") 1 "stripped_He_Core_C_depleted" 2) (m := 1); try reflexivity; try (left; reflexivity); [lra|discriminate]. Qed.
(** Without kicks: star 2 loses half a solar mass and the separation stays; the disrupted binary is detached. *)
Example no_kick_example : exists b', STEP false "BH" (3 / 2) (PAIR "disrupted" "CC2" DWARF DEPLETED false None) = Ok (Done b')
  /\ b_sep b' = V (1 * (1 + 3 / 2) / (1 + 3 / 2)) /\ s_mass (star_2 b') = V (3 / 2) /\ b_state b' = "detached".
Proof.
  assert (EV : STEP false "BH" (3 / 2) (PAIR "disrupted" "CC2" DWARF DEPLETED false None)
    = rbind (update_state (fun s => Ok (s_state s)) (BODY "BH" (Some "CCSN") (3 / 2) "stripped_He_Core_C_depleted" 2)) (fun y =>
      rbind (no_kick (PAIR "disrupted" "CC2" (reset_other DWARF) y false None)) (fun b' => rbind (finish (fun _ _ a _ => Ok a) b') (fun b'' => Ok (Done b''))))) by reflexivity.
  rewrite EV, make_ns. cbn [rbind]. unfold no_kick. cbn [PAIR star_1 star_2 s_mass s_last_mass BODY DWARF NEUTRON reset_other b_sep]. unfold separation_evol_wind_loss. cbn [arg rbind]. rewrite !pos_true by lra. cbn [andb rbind].
  unfold orbital_period_from_separation. cbn [arg rbind]. rewrite !pos_true by lra. cbn [andb rbind]. eexists. split; [reflexivity|]. repeat split.
Qed.
(** A collapse that fails, and a step that is not due. *)
Example failed_example : exists b', step UNITS (fun _ _ _ => Ok 0) 0 0 0 (fun m _ => Ok m) (CFG true) (fun _ => Ok (inl "no profile")) (fun s => Ok (s_state s)) (fun _ _ a _ => Ok a) (PAIR "detached" "CC1" DEPLETED DWARF false None)
    = Ok (Failed b' "no profile") /\ b_state b' = "ERR" /\ b_event b' = Some "FAILED".
Proof. eexists. split; [reflexivity|]. split; reflexivity. Qed.
Example event_example : STEP true "NS" 2 (PAIR "RLO1" "oRLO1" DEPLETED DWARF false None) = Raise ValueError.
Proof. reflexivity. Qed.

Print Assumptions C85_distribution.
Print Assumptions C85_kick.
Print Assumptions C85_no_orbit.
Print Assumptions C85_orbit.
Print Assumptions C85_white_dwarf.
Print Assumptions C80_event.
Print Assumptions C80_other_event.
Print Assumptions C80_failed.
Print Assumptions C80_remnant.
Print Assumptions C80_companion.
Print Assumptions C80_next_event.
Print Assumptions C80_inspiral.
Print Assumptions C80_no_kick.
Print Assumptions C80_max_NS_mass_refuted.
Print Assumptions C80_light_remnant_refuted.
Print Assumptions C80_no_kick_refuted.
Print Assumptions C85_velocity_refuted.
Print Assumptions C85_flag_refuted.
