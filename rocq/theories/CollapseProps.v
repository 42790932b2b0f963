(** C78: the compact object left by a collapsing star.  C79: when stored outcomes are used. *)
From Coq Require Import String List Bool ZArith QArith Lqa Lia.
From Verif Require Import PyBase PyNum PyStr MTModel FlowChartModel MergeModel SNModel SNTypeProps RembarProps PISNProps.
Import ListNotations.
Open Scope string_scope.
Open Scope list_scope.
Open Scope Q_scope.

Lemma mem_iff k l : mem k l = true <-> In k l.
Proof. unfold mem. rewrite existsb_exists. split; [intros (x & I & E); apply String.eqb_eq in E; congruence|intros I; exists k; split; [exact I|apply String.eqb_refl]]. Qed.
Lemma mem_not k l : mem k l = false <-> ~ In k l.
Proof. rewrite <- mem_iff. destruct (mem k l); split; congruence. Qed.

(** ** Loops over attributes *)
Section Loop.
  Variable (f : star -> string -> star) (g : pnum -> pnum -> string -> pnum).
  Hypothesis F1 : forall b k, sstate (f b k) = sstate b.
  Hypothesis F2 : forall b k n, n <> k -> attr (f b k) n = attr b n.
  Hypothesis F3 : forall b k, attr (f b k) k = g (attr b "mass") (attr b k) k.
  Hypothesis G1 : forall m v, g m v "mass" = v.
  Hypothesis G2 : forall m v k, g m (g m v k) k = g m v k.
  Lemma loop : forall names b, sstate (fold_left f names b) = sstate b
    /\ forall k, attr (fold_left f names b) k = if mem k names then g (attr b "mass") (attr b k) k else attr b k.
  Proof using All.
    induction names as [|n names IH]; intros b; [split; reflexivity|]. cbn [fold_left]. destruct (IH (f b n)) as [I1 I2]. split; [rewrite I1; apply F1|].
    intros k. rewrite I2. unfold mem in *. cbn [existsb].
    assert (M : attr (f b n) "mass" = attr b "mass"). { destruct (string_dec "mass" n) as [<-|N]; [rewrite F3; apply G1|apply F2; exact N]. }
    rewrite M. destruct (String.eqb_spec k n) as [-> |N]; cbn [orb].
    - rewrite F3. destruct (existsb (String.eqb n) names); [apply G2|reflexivity].
    - rewrite (F2 b n k N). reflexivity.
  Qed.
End Loop.
Lemma reset_spec kept b : In "mass" kept -> sstate (reset_except kept b) = sstate b
  /\ forall k, attr (reset_except kept b) k = if mem k STARPROPERTIES && negb (mem k kept) then None else attr b k.
Proof.
  intros K. apply mem_iff in K.
  destruct (loop (fun b k => if mem k kept then b else setattr b k None) (fun _ v k => if mem k kept then v else None)) with (names := STARPROPERTIES) (b := b) as [A B].
  - intros b0 k. destruct (mem k kept); reflexivity.
  - intros b0 k n N. destruct (mem k kept); [reflexivity|]. cbn [setattr attr]. apply String.eqb_neq in N. rewrite N. reflexivity.
  - intros b0 k. destruct (mem k kept); [reflexivity|]. cbn [setattr attr]. rewrite String.eqb_refl. reflexivity.
  - intros m v. rewrite K. reflexivity.
  - intros m v k. destruct (mem k kept); reflexivity.
  - split; [exact A|]. intros k. unfold reset_except. rewrite B. destruct (mem k STARPROPERTIES); destruct (mem k kept); reflexivity.
Qed.
Definition wd_new (no_he : bool) (m v : pnum) (k : string) : pnum :=
  if String.eqb k "he_core_mass" then m else if String.eqb k "co_core_mass" then (if no_he then m else fin 0) else if mem k WD_KEPT then v else None.
Lemma wd_spec b b' : wd_reset b = Ok b' -> exists no_he, p_lt (attr b "center_he4") (fin (1 # 100)) = Ok no_he /\ sstate b' = sstate b
  /\ forall k, attr b' k = if mem k STARPROPERTIES then wd_new no_he (attr b "mass") (attr b k) k else attr b k.
Proof.
  unfold wd_reset. intros H. apply rbind_ok in H as (no_he & P & H). exists no_he. split; [exact P|].
  destruct (loop (fun b k => if String.eqb k "he_core_mass" then setattr b k (attr b "mass")
                              else if String.eqb k "co_core_mass" then setattr b k (if no_he then attr b "mass" else fin 0)
                              else if mem k WD_KEPT then b else setattr b k None) (wd_new no_he)) with (names := STARPROPERTIES) (b := b) as [A B].
  - intros b0 k. destruct (String.eqb k "he_core_mass"), (String.eqb k "co_core_mass"), (mem k WD_KEPT); reflexivity.
  - intros b0 k n N. apply String.eqb_neq in N. destruct (String.eqb k "he_core_mass"), (String.eqb k "co_core_mass"), (mem k WD_KEPT); cbn [setattr attr]; rewrite ?N; reflexivity.
  - intros b0 k. unfold wd_new. destruct (String.eqb k "he_core_mass"), (String.eqb k "co_core_mass"), (mem k WD_KEPT); cbn [setattr attr]; rewrite ?String.eqb_refl; reflexivity.
  - reflexivity.
  - intros m v k. unfold wd_new. destruct (String.eqb k "he_core_mass"), (String.eqb k "co_core_mass"), (mem k WD_KEPT); reflexivity.
  - assert (E : b' = fold_left (fun b k => if String.eqb k "he_core_mass" then setattr b k (attr b "mass")
                              else if String.eqb k "co_core_mass" then setattr b k (if no_he then attr b "mass" else fin 0)
                              else if mem k WD_KEPT then b else setattr b k None) STARPROPERTIES b) by congruence. rewrite E. split; [exact A|exact B].
Qed.

(** ** Specification *)
(** The attributes of a star, by name; those of [kept] stay, the others are None. *)
Definition cleared (kept : list string) (b' : star) : Prop := forall k, In k STARPROPERTIES -> ~ In k kept -> attr b' k = None.
(** A white dwarf. *)
Definition is_wd (m : pnum) (he4 : pnum) (b b' : star) : Prop :=
  sstate b' = "WD" /\ attr b' "mass" = m /\ attr b' "spin" = fin 0 /\ attr b' "he_core_mass" = m
  /\ (exists y, he4 = Some y /\ attr b' "co_core_mass" = if nlt y (Fin (1 # 100)) then m else fin 0)
  /\ (forall k, In k [ "center_h1"; "center_he4"; "center_c12"; "center_n14"; "center_o16" ] -> attr b' k = attr b k)
  /\ cleared [ "mass"; "spin"; "he_core_mass"; "co_core_mass"; "center_h1"; "center_he4"; "center_c12"; "center_n14"; "center_o16" ] b'.
(** A neutron star or a black hole: what is kept of the star. *)
Definition is_co (log_R_of : num -> string -> num) (g : Q) (Z : pnum) (st : string) (spin : pnum) (b b' : star) : Prop :=
  sstate b' = st /\ attr b' "mass" = fin g /\ attr b' "spin" = spin /\ attr b' "log_R" = Some (log_R_of (Fin g) st) /\ attr b' "metallicity" = Z
  /\ attr b' "m_disk_accreted" = fin 0 /\ attr b' "m_disk_radiated" = fin 0 /\ attr b' "h1_mass_ej" = Some NaN /\ attr b' "he4_mass_ej" = Some NaN
  /\ attr b' "co_core_mass" = attr b "co_core_mass" /\ cleared [ "mass"; "spin"; "log_R"; "metallicity"; "co_core_mass" ] b'.
Definition MECHANISMS := [ "Fryer+12-rapid"; "Fryer+12-delayed"; "direct"; "direct_he_core"; "Sukhbold+16-engine"; "Patton&Sukhbold20-engine"; "Couch+20-engine"; "Maltsev+25-engine" ].

Section Env.
  Variables (log10 lattimer : Q -> Q) (engine : row -> result (pnum * pnum * option string)) (Zsun : Q) (cfg : config).
  Variables (log_R_of : num -> string -> num) (ccBH : sstar -> Q -> Q -> Q -> result bh) (ejecta : sstar -> pnum -> result (pnum * pnum)) (spin_of : num -> Q -> num).
  Notation collapse := (collapse_star log10 lattimer engine Zsun cfg log_R_of ccBH ejecta spin_of).
  Notation by_mechanism := (collapse_by_mechanism log10 lattimer engine Zsun cfg log_R_of ccBH ejecta spin_of).
  Definition remnant_of (s : sstar) : result sn_out := remnant log10 engine Zsun cfg (row_of (body s)) (last_row s) (attr (body s) "metallicity").
  (** The gravitational mass: as computed, but at least the mass without the maximal loss. *)
  Definition grav (q g : Q) : Prop := (q - lattimer q <= max_neutrino_mass_loss cfg /\ g = lattimer q) \/ (max_neutrino_mass_loss cfg < q - lattimer q /\ g = q - max_neutrino_mass_loss cfg).
  Lemma grav_spec q : grav q (m_grav lattimer cfg q).
  Proof using Type. unfold grav, m_grav. cbv zeta. destruct (qlt_spec (max_neutrino_mass_loss cfg) (q - lattimer q)); [right|left]; split; try reflexivity; lra. Qed.
  Definition black (g : Q) : bool := qle (max_NS_mass cfg) g.

  Lemma nan_attr b k : ~ In k [ "m_disk_accreted"; "m_disk_radiated" ] -> attr (none_to_nan b) k = attr b k.
  Proof using Type.
    intros N. cbn [In] in N. assert (N1 : String.eqb k "m_disk_accreted" = false) by (apply String.eqb_neq; intros ->; apply N; auto).
    assert (N2 : String.eqb k "m_disk_radiated" = false) by (apply String.eqb_neq; intros ->; apply N; auto). unfold none_to_nan. cbn [fold_left].
    destruct (attr b "m_disk_accreted"); [|set (b1 := setattr b "m_disk_accreted" (Some NaN))].
    - destruct (attr b "m_disk_radiated"); [reflexivity|]. cbn [setattr attr]. rewrite N2. reflexivity.
    - assert (E : attr b1 k = attr b k) by (unfold b1; cbn [setattr attr]; rewrite N1; reflexivity). destruct (attr b1 "m_disk_radiated"); [exact E|]. cbn [setattr attr]. rewrite N2. exact E.
  Qed.
  Lemma nan_state b : sstate (none_to_nan b) = sstate b.
  Proof using Type. unfold none_to_nan. cbn [fold_left]. destruct (attr b "m_disk_accreted"); [|set (b1 := setattr b _ _)]; destruct (attr _ "m_disk_radiated"); reflexivity. Qed.
  Lemma finish_spec s s' : finish log_R_of s = Ok s' -> SN_type s' = SN_type s /\ sstate (body s') = sstate (body s)
    /\ (exists m, attr (body s) "mass" = Some m /\ nle m (Fin 0) = false /\ In (sstate (body s)) [ "BH"; "NS"; "WD" ] /\ attr (body s') "mass" = Some m /\ attr (body s') "log_R" = Some (log_R_of m (sstate (body s))))
    /\ attr (body s') "metallicity" = last_Z s /\ cleared [ "mass"; "spin"; "log_R"; "metallicity"; "co_core_mass" ] (body s')
    /\ (forall k, ~ In k STARPROPERTIES \/ In k [ "mass"; "spin"; "co_core_mass" ] -> attr (body s') k = attr (body s) k).
  Proof using Type.
    unfold finish. cbv zeta. intros H. apply rbind_ok in H as (r & R & H). set (kept := [ "mass"; "spin"; "log_R"; "metallicity"; "m_disk_accreted"; "m_disk_radiated"; "co_core_mass" ]) in H.
    set (b1 := setattr (setattr (body s) "metallicity" (last_Z s)) "log_R" r) in H. destruct (reset_spec kept b1 ltac:(cbn; auto)) as [A B].
    assert (E : s' = with_body s (reset_except kept b1) (SN_type s)) by congruence. rewrite E. cbn [with_body body SN_type]. split; [reflexivity|]. split; [exact A|].
    unfold co_log_R in R. cbn [setattr attr sstate] in R. change (String.eqb "mass" "metallicity") with false in R. cbv iota in R. destruct (attr (body s) "mass") as [m|] eqn:M; [|discriminate].
    destruct (nle m (Fin 0)) eqn:L; [discriminate|]. destruct (mem (sstate (body s)) ["BH"; "NS"; "WD"]) eqn:I; [|discriminate].
    split.
    { exists m. split; [reflexivity|]. split; [exact L|]. split; [apply mem_iff; exact I|]. split; rewrite B; [exact M|]. cbn. congruence. }
    split; [rewrite B; reflexivity|]. split.
    - intros k K N. rewrite B. assert (M1 : mem k STARPROPERTIES = true) by (apply mem_iff; exact K). rewrite M1.
      assert (M2 : mem k kept = false). { apply mem_not. intros I'. cbn [kept In] in I'. destruct I' as [<-|[<-|[<-|[<-|[<-|[<-|[<-|[]]]]]]]]; try (apply N; cbn; auto 10; fail); revert K; apply mem_not; reflexivity. }
      rewrite M2. reflexivity.
    - intros k K. rewrite B. assert (M0 : mem k STARPROPERTIES && negb (mem k kept) = false).
      { destruct K as [K|K]; [apply mem_not in K; rewrite K; reflexivity|]. destruct K as [<-|[<-|[<-|[]]]]; reflexivity. }
      rewrite M0. unfold b1. cbn [setattr attr].
      assert (N1 : k <> "log_R") by (intros ->; destruct K as [K|[K|[K|[K|[]]]]]; try discriminate; apply K; apply mem_iff; reflexivity).
      assert (N2 : k <> "metallicity") by (intros ->; destruct K as [K|[K|[K|[K|[]]]]]; try discriminate; apply K; apply mem_iff; reflexivity).
      apply String.eqb_neq in N1, N2. rewrite N1, N2. reflexivity.
  Qed.

  (** ** Theorems *)
  (** The three kinds of outcomes without stored values and without a profile: a white dwarf, no remnant, or a neutron star or black hole, told apart by the gravitational mass. *)
  Definition outcome_of (s s' : sstar) (m f : pnum) (t : string) : Prop :=
    SN_type s' = Some t /\ attr (body s') "f_fb" = f
    /\ ((t = "WD" /\ is_wd m (attr (body s) "center_he4") (body s) (body s'))
        \/ (t <> "WD" /\ isna m = true /\ sstate (body s') = "massless_remnant" /\ attr (body s') "mass" = fin 0)
        \/ (t <> "WD" /\ exists q g, m = fin q /\ grav q g /\ 0 < g
            /\ ((black g = false /\ exists spin, is_co log_R_of g (last_Z s) "NS" spin (body s) (body s') /\ (use_core_masses cfg = true -> spin = fin 0) /\ (use_core_masses cfg = false -> spin = None))
                \/ (black g = true /\ exists spin, is_co log_R_of g (last_Z s) "BH" spin (body s) (body s')
                    /\ (use_core_masses cfg = true -> exists j a, attr (body s) "log_total_angular_momentum" = Some j /\ spin = Some a /\ (a = spin_of j g /\ ngt a (Fin 1) = false \/ ngt (spin_of j g) (Fin 1) = true /\ a = Fin 1))
                    /\ (use_core_masses cfg = false -> spin = None))))).
  Theorem C78_outcome : forall model s s', In (mechanism cfg) MECHANISMS -> use_interp_values cfg = false -> use_profiles cfg = false \/ has_profile s = false ->
    collapse model s = Ok (Done s') ->
    In (sstate (body s)) CC_STATES /\ exists m f st t, remnant_of s = Ok (m, f, st, t) /\ outcome_of s s' m f t.
  Proof using Type.
    intros model s s' MM UI NP. unfold collapse_star. cbv zeta. cbn [body with_body]. rewrite nan_state. destruct (mem (sstate (body s)) CC_STATES) eqn:CC; [|discriminate].
    intros H. split; [apply mem_iff; exact CC|]. unfold use_interpolation in H. rewrite UI in H. cbn [rbind fst snd] in H. unfold collapse_by_mechanism in H.
    assert (MI : negb (mem (mechanism cfg) (FRYER ++ ENGINES)) = false) by (apply negb_false_iff, mem_iff; exact MM). rewrite MI in H. cbn [body with_body last_row SN_type] in H.
    assert (RO : row_of (none_to_nan (body s)) = row_of (body s)).
    { unfold row_of. rewrite nan_state, !nan_attr by (cbn; intuition discriminate). reflexivity. }
    rewrite RO in H. rewrite (nan_attr (body s) "metallicity") in H by (cbn; intuition discriminate).
    apply rbind_ok in H as (mP & P & H). apply rbind_ok in H as ([[[m f] st] t] & R & H). cbv beta iota in H.
    exists m, f, st, t. split; [unfold remnant_of, remnant, limit; rewrite P; exact R|]. set (b0 := none_to_nan (body s)) in *.
    assert (B0 : forall k, ~ In k [ "m_disk_accreted"; "m_disk_radiated" ] -> attr b0 k = attr (body s) k) by (intros k K; apply nan_attr; exact K). clearbody b0. unfold outcome_of.
    destruct (String.eqb_spec t "WD") as [T|T].
    { apply rbind_ok in H as (r & Rr & H). apply rbind_ok in H as (b & W & H). assert (E : s' = with_body (with_body s b0 (SN_type s)) b (Some t)) by congruence. rewrite E. cbn [with_body body SN_type].
      destruct (wd_spec _ _ W) as (nh & PL & ST & AT). split; [reflexivity|]. cbn [setattr attr set_state] in PL. change (attr b0 "center_he4") with (attr b0 "center_he4") in PL. cbn [String.eqb Ascii.eqb Bool.eqb] in PL.
      rewrite (B0 "center_he4") in PL by (cbn; intuition discriminate).
      split; [rewrite AT; reflexivity|]. left. split; [exact T|]. unfold is_wd. split; [rewrite ST; reflexivity|]. split; [rewrite AT; reflexivity|]. split; [rewrite AT; reflexivity|]. split; [rewrite AT; reflexivity|].
      split. { destruct (attr (body s) "center_he4") as [y|]; [|discriminate]. exists y. split; [reflexivity|]. rewrite AT. assert (nh = nlt y (Fin (1 # 100))) as -> by (unfold fin, p_lt in PL; congruence). reflexivity. }
      split. { intros k K. rewrite AT. destruct K as [<-|[<-|[<-|[<-|[<-|[]]]]]]; unfold wd_new; cbn -[attr]; cbn [setattr attr set_state]; cbn -[attr]; apply B0; cbn; intuition discriminate. }
      intros k K N. rewrite AT. apply mem_iff in K as K'. rewrite K'. unfold wd_new.
      assert (X : forall x, In x [ "mass"; "spin"; "he_core_mass"; "co_core_mass"; "center_h1"; "center_he4"; "center_c12"; "center_n14"; "center_o16" ] -> String.eqb k x = false) by (intros x Ix; apply String.eqb_neq; intros ->; apply N; exact Ix).
      rewrite (X "he_core_mass"), (X "co_core_mass") by (cbn; auto 12).
      assert (MK : mem k WD_KEPT = false). { apply mem_not. intros I. cbn [WD_KEPT In] in I. destruct I as [<-|[<-|[<-|[<-|I]]]]; try (apply N; cbn; auto 12; fail); revert K; apply mem_not; reflexivity. }
      rewrite MK. reflexivity. }
    set (es := if mem (mechanism cfg) FRYER then None else Some st) in H. set (b := match es with Some (Some x) => set_state (setattr b0 "f_fb" f) x | _ => setattr b0 "f_fb" f end) in H.
    assert (Bf : attr b "f_fb" = f) by (unfold b; destruct es as [[x|]|]; reflexivity).
    assert (Bk : forall k, k <> "f_fb" -> ~ In k [ "m_disk_accreted"; "m_disk_radiated" ] -> attr b k = attr (body s) k).
    { intros k N K. rewrite <- B0 by exact K. apply String.eqb_neq in N. unfold b. destruct es as [[x|]|]; cbn [set_state setattr attr]; rewrite N; reflexivity. }
    clearbody b. cbn [with_body SN_type has_profile] in H. destruct (isna m) eqn:NA.
    { assert (E : exists s1, s' = with_body s1 (convert_star_to_massless_remnant b) (Some t)) by (eexists; symmetry; injection H as H; exact H). destruct E as [s1 ->]. cbn [with_body body SN_type].
      split; [reflexivity|]. split; [exact Bf|]. right; left. split; [exact T|]. split; [reflexivity|]. split; reflexivity. }
    apply rbind_ok in H as (q & Fq & H). assert (m = fin q) as -> by (unfold finite in Fq; destruct m as [[| | |x]|]; try discriminate; unfold fin; congruence). clear NA Fq.
    assert (UP : use_profiles cfg && has_profile s = false) by (destruct NP as [-> | ->]; [reflexivity|apply andb_false_r]). rewrite UP in H. set (g := m_grav lattimer cfg q) in *. assert (G := grav_spec q). fold g in G. clearbody g.
    cbn [String.eqb] in H. rewrite orb_false_r in H. destruct (use_core_masses cfg) eqn:UC.
    - apply rbind_ok in H as (s1 & S1 & H). apply rbind_ok in H as (s2 & S2 & H). assert (s2 = s') as -> by congruence. unfold by_core_mass in S1. cbv zeta in S1. cbn [with_body body SN_type] in S1.
      apply rbind_ok in S1 as (b1 & S1 & E1).
      assert (BB : SN_type s1 = Some t /\ last_Z s1 = last_Z s /\ body s1 = eject b1 (Some NaN) (Some NaN)) by (injection E1 as <-; repeat split). destruct BB as (BT & BZ & BB).
      destruct (finish_spec _ _ S2) as (FT & FS & (mm & FM & FP & FI & FM' & FR) & FZ & FC & FK).
      fold (black g) in S1. assert (CO : forall st0 sp, b1 = set_state (no_disk (setattr (setattr b "mass" (fin g)) "spin" sp)) st0 -> 0 < g /\ attr (body s') "f_fb" = f /\ is_co log_R_of g (last_Z s) st0 sp (body s) (body s')).
      { intros st0 sp ->. rewrite BB in *. cbn [eject no_disk set_state setattr attr sstate] in FM, FS, FI, FR. cbn [String.eqb Ascii.eqb Bool.eqb] in FM. assert (mm = Fin g) by (unfold fin in FM; congruence). subst mm.
        split; [destruct (nle_spec g 0); [discriminate|lra]|].
        split; [rewrite FK; [cbn; exact Bf|left; apply mem_not; reflexivity]|]. unfold is_co. split; [exact FS|]. split; [exact FM'|]. split; [rewrite FK; [reflexivity|right; cbn; auto]|]. split; [exact FR|]. split; [rewrite FZ; exact BZ|].
        split; [rewrite FK; [reflexivity|left; apply mem_not; reflexivity]|]. split; [rewrite FK; [reflexivity|left; apply mem_not; reflexivity]|]. split; [rewrite FK; [reflexivity|left; apply mem_not; reflexivity]|].
        split; [rewrite FK; [reflexivity|left; apply mem_not; reflexivity]|]. split; [|exact FC]. rewrite FK; [|right; cbn; auto]. cbn. apply Bk; [discriminate|cbn; intuition discriminate]. }
      destruct (black g) eqn:BL.
      + change (attr (setattr b "mass" (fin g)) "log_total_angular_momentum") with (attr b "log_total_angular_momentum") in S1.
        rewrite Bk in S1 by (cbn; intuition discriminate). destruct (attr (body s) "log_total_angular_momentum") as [j|] eqn:J; [|discriminate]. cbv zeta in S1.
        destruct (CO "BH" (Some (if ngt (spin_of j g) (Fin 1) then Fin 1 else spin_of j g)) ltac:(congruence)) as (GP & Ff & C). split; [congruence|]. split; [exact Ff|]. right; right. split; [exact T|]. exists q, g. split; [reflexivity|]. split; [exact G|]. split; [exact GP|].
        right. split; [exact BL|]. eexists. split; [exact C|]. split; [|discriminate]. intros _. eexists j, _. split; [first [reflexivity|exact J]|]. split; [reflexivity|]. destruct (ngt (spin_of j g) (Fin 1)) eqn:X; [right; split; reflexivity|left; split; [reflexivity|exact X]].
      + destruct (CO "NS" (fin 0) ltac:(congruence)) as (GP & Ff & C). split; [congruence|]. split; [exact Ff|]. right; right. split; [exact T|]. exists q, g. split; [reflexivity|]. split; [exact G|]. split; [exact GP|].
        left. split; [exact BL|]. eexists. split; [exact C|]. split; [reflexivity|discriminate].
    - destruct (allow_spin_None cfg); [|discriminate]. apply rbind_ok in H as (s2 & S2 & H). assert (s2 = s') as -> by congruence.
      destruct (finish_spec _ _ S2) as (FT & FS & (mm & FM & FP & FI & FM' & FR) & FZ & FC & FK). unfold without_spin in *. cbn [with_body body SN_type last_Z eject no_disk set_state setattr attr sstate] in FT, FM, FS, FI, FR, FZ.
      cbn [String.eqb Ascii.eqb Bool.eqb] in FM. assert (mm = Fin g) by (unfold fin in FM; congruence). subst mm. fold (black g) in *.
      split; [exact FT|]. split; [rewrite FK; [cbn; exact Bf|left; apply mem_not; reflexivity]|]. right; right. split; [exact T|]. exists q, g. split; [reflexivity|]. split; [exact G|]. split; [destruct (nle_spec g 0); [discriminate|lra]|].
      assert (CO : is_co log_R_of g (last_Z s) (if black g then "BH" else "NS") None (body s) (body s')).
      { unfold is_co. split; [exact FS|]. split; [exact FM'|]. split; [rewrite FK; [reflexivity|right; cbn; auto]|]. split; [exact FR|]. split; [exact FZ|].
        split; [rewrite FK; [reflexivity|left; apply mem_not; reflexivity]|]. split; [rewrite FK; [reflexivity|left; apply mem_not; reflexivity]|]. split; [rewrite FK; [reflexivity|left; apply mem_not; reflexivity]|].
        split; [rewrite FK; [reflexivity|left; apply mem_not; reflexivity]|]. split; [|exact FC]. rewrite FK; [|right; cbn; auto]. cbn. apply Bk; [discriminate|cbn; intuition discriminate]. }
      destruct (black g); [right|left]; (split; [reflexivity|]); exists None; (split; [exact CO|]); split; [discriminate|reflexivity|discriminate|reflexivity].
  Qed.

  (** With a profile: black holes come from the collapse of the profile; the engines' own decision between neutron star and black hole matters. *)
  Definition by_formula : bool := mem (mechanism cfg) [ "Fryer+12-rapid"; "Fryer+12-delayed"; "direct"; "direct_he_core" ].
  Definition says (st : option string) (x : string) : Prop := by_formula = false /\ st = Some x.
  Theorem C78_profile : forall model s q f st t o, In (mechanism cfg) MECHANISMS -> use_interp_values cfg = false -> use_profiles cfg = true -> has_profile s = true ->
    remnant_of s = Ok (fin q, f, st, t) -> t <> "WD" -> collapse model s = Ok o -> In (sstate (body s)) CC_STATES ->
    exists g, grav q g /\
    ((black g = true /\ (by_formula = true \/ says st "BH") /\ exists s' s1 x d, o = Done s' /\ SN_type s' = Some t /\ d == q - g /\ d <= max_neutrino_mass_loss cfg
        /\ ccBH s1 q (max_NS_mass cfg + d) d = Ok x /\ sstate (body s') = "BH" /\ attr (body s') "mass" = M_BH_total x /\ attr (body s') "spin" = a_BH_total x)
     \/ ((by_formula = true /\ black g = false \/ says st "NS") /\ exists s', o = Done s' /\ SN_type s' = Some t /\ sstate (body s') = "NS"
        /\ attr (body s') "mass" = fin g /\ attr (body s') "spin" = fin 0 /\ attr (body s') "m_disk_accreted" = fin 0 /\ attr (body s') "m_disk_radiated" = fin 0 /\ 0 < g)
     \/ (by_formula = false /\ st <> Some "NS" /\ (black g = false \/ st <> Some "BH") /\ exists msg, o = Failed msg)).
  Proof using Type.
    intros model s q f st t o MM UI UP HP RM T. unfold collapse_star. cbv zeta. cbn [body with_body]. rewrite nan_state. intros H CC. apply mem_iff in CC. rewrite CC in H.
    unfold use_interpolation in H. rewrite UI in H. cbn [rbind fst snd] in H. unfold collapse_by_mechanism in H.
    assert (MI : negb (mem (mechanism cfg) (FRYER ++ ENGINES)) = false) by (apply negb_false_iff, mem_iff; exact MM). rewrite MI in H. cbn [body with_body last_row SN_type] in H.
    assert (RO : row_of (none_to_nan (body s)) = row_of (body s)).
    { unfold row_of. rewrite nan_state, !nan_attr by (cbn; intuition discriminate). reflexivity. }
    rewrite RO in H. rewrite (nan_attr (body s) "metallicity") in H by (cbn; intuition discriminate).
    unfold remnant_of, remnant, limit in RM. apply rbind_ok in H as (mP & P & H). rewrite P in RM. cbn [rbind] in RM. rewrite RM in H. cbn [rbind] in H.
    apply String.eqb_neq in T. rewrite T in H. cbn [isna fin] in H. change (finite (fin q)) with (@Ok Q q) in H. cbn [rbind] in H. cbn [with_body has_profile] in H. rewrite UP, HP in H. cbn [andb] in H.
    set (g := m_grav lattimer cfg q) in *. assert (G := grav_spec q). fold g in G. clearbody g. exists g. split; [exact G|]. fold by_formula in H. change (mem (mechanism cfg) FRYER) with by_formula in H.
    apply rbind_ok in H as (r & R & H).
    match type of R with by_profile _ _ _ ?x _ _ _ = _ => remember x as s0 eqn:S0 end.
    assert (ST : SN_type s0 = Some t) by (rewrite S0; reflexivity). assert (SS : by_formula = false -> forall x, st = Some x -> sstate (body s0) = x) by (intros BF x ->; rewrite S0, BF; reflexivity). clear S0.
    unfold by_profile in R. cbv zeta in R. fold (black g) in R.
    assert (D : exists d, (if qlt (max_neutrino_mass_loss cfg) (q - g) then max_neutrino_mass_loss cfg else q - g) = d /\ d == q - g /\ d <= max_neutrino_mass_loss cfg).
    { eexists. split; [reflexivity|]. destruct G as [[G1 ->]|[G1 ->]]; match goal with |- context [qlt ?a ?b] => destruct (qlt_spec a b) end; try lra; split; lra. }
    destruct D as (d & D0 & D1 & D2). rewrite D0 in R. clear D0.
    apply rbind_ok in R as (r1 & R1 & R2).
    (* the last steps keep the state, the mass and the spin *)
    assert (FIN : forall b1 r s0, SN_type s0 = Some t -> rbind (ejecta (with_body s0 b1 (SN_type s0)) (attr b1 "mass")) (fun e => Ok (inl (with_body (with_body s0 b1 (SN_type s0)) (eject b1 (fst e) (snd e)) (SN_type (with_body s0 b1 (SN_type s0)))))) = Ok r ->
      match r with inl s => rbind (finish log_R_of s) (fun s => Ok (Done s)) | inr msg => Ok (@Failed msg) end = Ok o ->
      exists s', o = Done s' /\ SN_type s' = Some t /\ sstate (body s') = sstate b1 /\ attr (body s') "mass" = attr b1 "mass" /\ attr (body s') "spin" = attr b1 "spin"
        /\ attr (body s') "m_disk_accreted" = attr b1 "m_disk_accreted" /\ attr (body s') "m_disk_radiated" = attr b1 "m_disk_radiated" /\ (forall m, attr b1 "mass" = Some m -> nle m (Fin 0) = false)).
    { clear. intros b1 r s0 S0 E F. apply rbind_ok in E as (e & _ & E). assert (E' : r = inl (with_body (with_body s0 b1 (SN_type s0)) (eject b1 (fst e) (snd e)) (SN_type s0))) by (injection E; intros; subst; reflexivity).
      rewrite E' in F. apply rbind_ok in F as (s' & F & O). exists s'. split; [congruence|]. destruct (finish_spec _ _ F) as (FT & FS & (mm & FM & FP & FI & FM' & FR) & FZ & FC & FK). cbn [with_body body SN_type] in *.
      split; [rewrite FT; exact S0|]. split; [rewrite FS; reflexivity|]. split; [rewrite FK; [reflexivity|right; cbn; auto]|]. split; [rewrite FK; [reflexivity|right; cbn; auto]|].
      split; [rewrite FK; [reflexivity|left; apply mem_not; reflexivity]|]. split; [rewrite FK; [reflexivity|left; apply mem_not; reflexivity]|].
      intros m M. change (attr (eject b1 (fst e) (snd e)) "mass") with (attr b1 "mass") in FM. congruence. }
    destruct (black g && match (if by_formula then None else Some st) with None => true | Some None => false | Some (Some x) => String.eqb x "BH" end) eqn:BR.
    - apply andb_true_iff in BR as [BL BR]. left. split; [exact BL|].
      split. { unfold says. destruct by_formula; [left; reflexivity|right; split; [reflexivity|]]. destruct st as [x|]; [|discriminate]. apply String.eqb_eq in BR. congruence. }
      apply rbind_ok in R1 as (x & X & R1). assert (E1 : exists b1, r1 = inl b1 /\ sstate b1 = "BH" /\ attr b1 "mass" = M_BH_total x /\ attr b1 "spin" = a_BH_total x) by (eexists; split; [symmetry; injection R1 as R1; exact R1|]; repeat split).
      destruct E1 as (b1 & -> & E1 & E2 & E3). destruct (FIN b1 r _ ST R2 H) as (s' & F1 & F2 & F3 & F4 & F5 & _).
      eexists s', _, x, d. split; [exact F1|]. split; [exact F2|]. split; [exact D1|]. split; [exact D2|]. split; [exact X|]. rewrite F3, F4, F5. auto.
    - right. destruct by_formula eqn:BF.
      + left. rewrite andb_true_r in BR. assert (E1 : exists b1, r1 = inl b1 /\ sstate b1 = "NS" /\ attr b1 "mass" = fin g /\ attr b1 "spin" = fin 0 /\ attr b1 "m_disk_accreted" = fin 0 /\ attr b1 "m_disk_radiated" = fin 0) by (eexists; split; [symmetry; injection R1 as R1; exact R1|]; repeat split).
        destruct E1 as (b1 & -> & E1 & E2 & E3 & E4 & E5). destruct (FIN b1 r _ ST R2 H) as (s' & F1 & F2 & F3 & F4 & F5 & F6 & F7 & F8).
        split; [left; split; [reflexivity|exact BR]|]. exists s'. rewrite F3, F4, F5, F6, F7. repeat split; auto. specialize (F8 _ E2). destruct (nle_spec g 0); [discriminate|lra].
      + destruct st as [x|].
        * destruct (String.eqb_spec x "NS") as [-> |N].
          -- left. assert (E1 : exists b1, r1 = inl b1 /\ sstate b1 = "NS" /\ attr b1 "mass" = fin g /\ attr b1 "spin" = fin 0 /\ attr b1 "m_disk_accreted" = fin 0 /\ attr b1 "m_disk_radiated" = fin 0) by (eexists; split; [symmetry; injection R1 as R1; exact R1|]; split; [exact (SS eq_refl _ eq_refl)|]; repeat split).
             destruct E1 as (b1 & -> & E1 & E2 & E3 & E4 & E5). destruct (FIN b1 r _ ST R2 H) as (s' & F1 & F2 & F3 & F4 & F5 & F6 & F7 & F8).
             split; [right; split; auto|]. exists s'. rewrite F3, F4, F5, F6, F7. repeat split; auto. specialize (F8 _ E2). destruct (nle_spec g 0); [discriminate|lra].
          -- right. split; [reflexivity|]. split; [congruence|]. split; [apply andb_false_iff in BR as [BR|BR]; [left; exact BR|right; apply String.eqb_neq in BR; congruence]|].
             assert (E1 : exists msg, r1 = inr msg) by (eexists; symmetry; injection R1 as R1; exact R1). destruct E1 as (msg & ->). exists msg. assert (r = inr msg) as -> by congruence. congruence.
        * right. split; [reflexivity|]. split; [discriminate|]. split; [right; discriminate|]. assert (E1 : exists msg, r1 = inr msg) by (eexists; symmetry; injection R1 as R1; exact R1). destruct E1 as (msg & ->). exists msg.
          assert (r = inr msg) as -> by congruence. congruence.
  Qed.
  (** When the collapse fails without a profile: the star is not in a state of collapse, or no way of giving it a spin was chosen. *)
  Theorem C78_failed : forall model s msg, In (mechanism cfg) MECHANISMS -> use_interp_values cfg = false -> use_profiles cfg = false \/ has_profile s = false ->
    collapse model s = Ok (Failed msg) -> ~ In (sstate (body s)) CC_STATES \/ (use_core_masses cfg = false /\ allow_spin_None cfg = false).
  Proof using Type.
    intros model s msg MM UI NP. unfold collapse_star. cbv zeta. cbn [body with_body]. rewrite nan_state. destruct (mem (sstate (body s)) CC_STATES) eqn:CC; [|intros _; left; apply mem_not; exact CC].
    intros H. right. unfold use_interpolation in H. rewrite UI in H. cbn [rbind fst snd] in H. unfold collapse_by_mechanism in H.
    assert (MI : negb (mem (mechanism cfg) (FRYER ++ ENGINES)) = false) by (apply negb_false_iff, mem_iff; exact MM). rewrite MI in H.
    apply rbind_ok in H as (mP & P & H). apply rbind_ok in H as ([[[m f] st] t] & R & H). cbv beta iota in H.
    destruct (String.eqb t "WD"). { apply rbind_ok in H as (r & _ & H). apply rbind_ok in H as (b & _ & H). discriminate. }
    cbv zeta in H. destruct (isna m); [discriminate|]. apply rbind_ok in H as (q & _ & H). cbn [with_body has_profile] in H.
    assert (UP : use_profiles cfg && has_profile s = false) by (destruct NP as [-> | ->]; [reflexivity|apply andb_false_r]). rewrite UP in H. cbn [String.eqb] in H. rewrite orb_false_r in H.
    destruct (use_core_masses cfg); [apply rbind_ok in H as (s1 & _ & H); apply rbind_ok in H as (s2 & _ & H); discriminate|].
    destruct (allow_spin_None cfg); [apply rbind_ok in H as (s2 & _ & H); discriminate|]. split; reflexivity.
  Qed.
End Env.

(** ** C79, specification *)
(** The configuration without stored outcomes, and the one that collapses from core masses. *)
Definition no_interp (c : config) : config := Config (mechanism c) (PISN c) (PISN_CO_shift c) (PPI_extra_mass_loss c) (ECSN c) (conserve_hydrogen_envelope c) (conserve_hydrogen_PPI c)
  (max_neutrino_mass_loss c) (max_NS_mass c) false (use_profiles c) (use_core_masses c) (allow_spin_None c).
Definition from_cores (c : config) : config := Config (mechanism c) (PISN c) (PISN_CO_shift c) (PPI_extra_mass_loss c) (ECSN c) (conserve_hydrogen_envelope c) (conserve_hydrogen_PPI c)
  (max_neutrino_mass_loss c) (max_NS_mass c) false (use_profiles c) true (allow_spin_None c).
(** The type of supernova by the current core masses. *)
Definition type_now (c : config) (s : sstar) (t : string) : Prop :=
  exists m f st, check_SN_type (ECSN c) (attr (body s) "co_core_mass") (attr (body s) "he_core_mass") (attr (body s) "mass") = Ok (m, f, st, t).
(** The stored outcome fits the star. *)
Definition fits (t : string) (p : sn_model) : Prop :=
  t <> "ECSN" /\ (p_type p = t \/ p_type p = "ECSN") /\ (p_state p = "WD" -> t = "WD") /\ (p_state p = "NS" -> t = "ECSN" \/ t = "CCSN") /\ (p_state p = "BH" -> t = "CCSN" \/ t = "PPISN")
  /\ (p_state p = "massless_remnant" \/ p_state p = "PISN" -> t = "PISN").

Section Stored.
  Variables (log10 lattimer : Q -> Q) (engine : row -> result (pnum * pnum * option string)) (Zsun : Q).
  Variables (log_R_of : num -> string -> num) (ccBH : sstar -> Q -> Q -> Q -> result bh) (ejecta : sstar -> pnum -> result (pnum * pnum)) (spin_of : num -> Q -> num).
  Notation collapse c := (collapse_star log10 lattimer engine Zsun c log_R_of ccBH ejecta spin_of).

  Lemma match_fits t p : check_SN_CO_match t (p_state p) = true <-> (p_state p = "WD" -> t = "WD") /\ (p_state p = "NS" -> t = "ECSN" \/ t = "CCSN") /\ (p_state p = "BH" -> t = "CCSN" \/ t = "PPISN")
  /\ (p_state p = "massless_remnant" \/ p_state p = "PISN" -> t = "PISN").
  Proof using Type. apply C73_match. Qed.
  Lemma type_kinds c s t : type_now c s t -> In t [ "WD"; "ECSN"; "CCSN" ].
  Proof using Type.
    intros (m & f & st & H). revert H. generalize (attr (body s) "co_core_mass") (attr (body s) "he_core_mass") (attr (body s) "mass"). intros x y z H.
    assert (W : white_dwarf x y z = Ok (m, f, st, t) -> t = "WD").
    { unfold white_dwarf. intros E. apply rbind_ok in E as (w & _ & E). congruence. }
    assert (N : forall u, no_wd u = Ok (m, f, st, t) -> t = u) by (intros u E; unfold no_wd in E; congruence).
    unfold check_SN_type in H. cbn [In]. destruct (ECSN c) as [e|].
    - destruct (String.eqb e "Tauris+15"); [|destruct (String.eqb e "Podsiadlowski+04"); [|discriminate]]; cbv zeta in H;
        (apply rbind_ok in H as (b1 & _ & H); destruct b1; [apply W in H; auto|]; apply rbind_ok in H as (b2 & _ & H); destruct b2; [apply N in H; auto|];
         apply rbind_ok in H as (b3 & _ & H); destruct b3; [apply N in H; auto|discriminate]).
    - apply rbind_ok in H as (b1 & _ & H). destruct b1; [apply W in H; auto|apply N in H; auto].
  Qed.

  (** ** C79, theorems *)
  (** A stored outcome that does not fit, or has no mass, is ignored: the star collapses as if there were none; only in the electron-capture range the core masses are used. *)
  Theorem C79_ignored : forall c s p t, use_interp_values c = true -> stored s = Some p -> type_now c s t -> ~ (fits t p /\ exists m, dget String.eqb (p_values p) "mass" = Some (Some m) /\ m <> NaN) ->
    (exists m, dget String.eqb (p_values p) "mass" = Some m) ->
    (t <> "ECSN" -> collapse c true s = collapse (no_interp c) true s) /\ (t = "ECSN" -> collapse c true s = collapse (from_cores c) true s).
  Proof using Type.
    intros c s p t UI SP (m & f & st & TY) NF (mv & MV). unfold collapse_star. cbv zeta. cbn [body with_body].
    destruct (mem (sstate (none_to_nan (body s))) CC_STATES); [|split; reflexivity].
    unfold use_interpolation. rewrite UI. cbn [with_body stored use_interp_values no_interp from_cores negb rbind fst snd body]. rewrite SP.
    rewrite !nan_attr by (cbn; intuition discriminate). rewrite TY. cbn [rbind].
    assert (E : interpolated log_R_of (with_body s (none_to_nan (body s)) (SN_type s)) t p = Ok None).
    { unfold interpolated. cbv zeta. destruct (String.eqb_spec t "ECSN") as [TE|TE]; [reflexivity|]. destruct (String.eqb_spec t (p_type (selected t p))) as [ET|ET]; [|reflexivity]. cbn [negb].
      destruct (check_SN_CO_match (p_type (selected t p)) (p_state (selected t p))) eqn:CM; [|reflexivity]. cbn [negb].
      assert (SV : p_values (selected t p) = p_values p) by (unfold selected; destruct (String.eqb (p_type p) "ECSN"); reflexivity).
      assert (SS : p_state (selected t p) = p_state p) by (unfold selected; destruct (String.eqb (p_type p) "ECSN"); reflexivity).
      rewrite SV, MV. destruct (isna mv) eqn:NA; [reflexivity|exfalso]. apply NF. split.
      - unfold fits. split; [exact TE|]. split; [|apply match_fits; rewrite <- SS; congruence]. unfold selected in ET. destruct (String.eqb_spec (p_type p) "ECSN") as [PE|PE]; [right; exact PE|left; congruence].
      - destruct mv as [x|]; [|discriminate]. exists x. split; [exact MV|]. intros ->. discriminate. }
    rewrite E. cbn [rbind fst snd]. split.
    - intros T. apply String.eqb_neq in T. unfold collapse_by_mechanism. cbn [mechanism no_interp use_profiles use_core_masses allow_spin_None]. rewrite T. destruct c; reflexivity.
    - intros ->. unfold collapse_by_mechanism. cbn [mechanism from_cores use_profiles use_core_masses allow_spin_None]. change (String.eqb "ECSN" "ECSN") with true. rewrite (orb_true_r (use_core_masses c)). destruct c; reflexivity.
  Qed.
  (** A star without a stored outcome, likewise. *)
  Theorem C79_absent : forall c s, use_interp_values c = true -> stored s = None -> collapse c true s = collapse (no_interp c) true s.
  Proof using Type.
    intros c s UI SP. unfold collapse_star. cbv zeta. cbn [body with_body]. destruct (mem (sstate (none_to_nan (body s))) CC_STATES); [|reflexivity].
    unfold use_interpolation. rewrite UI. cbn [with_body stored use_interp_values no_interp negb rbind fst snd]. rewrite SP. cbn [rbind fst snd]. destruct c; reflexivity.
  Qed.
  (** One that fits is used: type, state and mass are the stored ones, and nothing else of the star is kept. *)
  Theorem C79_used : forall c s p t m o, use_interp_values c = true -> stored s = Some p -> type_now c s t -> In (sstate (body s)) CC_STATES ->
    fits t p -> NoDup (map fst (p_values p)) -> dget String.eqb (p_values p) "mass" = Some (Some m) -> m <> NaN -> collapse c true s = Ok o ->
    exists s', o = Done s' /\ SN_type s' = Some t /\ sstate (body s') = p_state p /\ In (p_state p) [ "BH"; "NS"; "WD" ] /\ attr (body s') "mass" = Some m /\ attr (body s') "log_R" = Some (log_R_of m (p_state p))
    /\ attr (body s') "spin" = match dget String.eqb (p_values p) "spin" with Some v => v | None => attr (body s) "spin" end
    /\ attr (body s') "metallicity" = None
    /\ (p_state p <> "WD" -> cleared [ "mass"; "spin"; "log_R" ] (body s'))
    /\ (p_state p = "WD" -> attr (body s') "he_core_mass" = Some m /\ cleared [ "mass"; "spin"; "log_R"; "he_core_mass"; "co_core_mass"; "center_h1"; "center_he4"; "center_c12"; "center_n14"; "center_o16" ] (body s')).
  Proof using Type.
    intros c s p t m o UI SP TY CC FI ND MV MN H. assert (TK := type_kinds _ _ _ TY). destruct TY as (m0 & f0 & st0 & TY). unfold collapse_star in H. cbv zeta in H. cbn [body with_body] in H.
    rewrite nan_state in H. apply mem_iff in CC. rewrite CC in H. unfold use_interpolation in H. rewrite UI in H. cbn [with_body stored negb rbind fst snd body] in H. rewrite SP in H.
    rewrite !nan_attr in H by (cbn; intuition discriminate). rewrite TY in H. cbn [rbind] in H. destruct FI as (TE & PT & CM).
    assert (SV : p_values (selected t p) = p_values p) by (unfold selected; destruct (String.eqb (p_type p) "ECSN"); reflexivity).
    assert (SS : p_state (selected t p) = p_state p) by (unfold selected; destruct (String.eqb (p_type p) "ECSN"); reflexivity).
    assert (ST : p_type (selected t p) = t) by (unfold selected; destruct (String.eqb_spec (p_type p) "ECSN"); [reflexivity|destruct PT; congruence]).
    unfold interpolated in H. cbv zeta in H. apply String.eqb_neq in TE. rewrite TE, ST, String.eqb_refl, SS, SV, MV in H. cbn [negb] in H. apply match_fits in CM. rewrite CM in H. cbn [negb] in H.
    assert (NA : isna (Some m) = false) by (destruct m; [contradiction|reflexivity..]). rewrite NA in H. change (body (with_body s (none_to_nan (body s)) (SN_type s))) with (none_to_nan (body s)) in H.
    set (b := set_state (set_all (none_to_nan (body s)) (p_values p)) (p_state p)) in H.
    assert (AB : forall l b, NoDup (map fst l) -> forall k, attr (set_all b l) k = match dget String.eqb l k with Some v => v | None => attr b k end).
    { clear. induction l as [|[k v] l IH]; intros b ND x; [reflexivity|]. cbn [map fst] in ND. inversion ND as [|? ? NI ND']; subst. unfold set_all in *. cbn [fold_left fst snd dget]. rewrite IH by exact ND'.
      destruct (String.eqb_spec x k) as [-> |N].
      - assert (D : dget String.eqb l k = None). { clear -NI. induction l as [|[k' v'] l IH]; [reflexivity|]. cbn [dget map fst] in *. destruct (String.eqb_spec k k') as [<-|N]; [exfalso; apply NI; left; reflexivity|]. apply IH. intros I. apply NI. right. exact I. }
        rewrite D. cbn [setattr attr]. rewrite String.eqb_refl. reflexivity.
      - destruct (dget String.eqb l x); [reflexivity|]. cbn [setattr attr]. apply String.eqb_neq in N. rewrite N. reflexivity. }
    assert (BM : attr b "mass" = Some m) by (unfold b; cbn [set_state attr]; rewrite AB, MV by exact ND; reflexivity).
    assert (BS : attr b "spin" = match dget String.eqb (p_values p) "spin" with Some v => v | None => attr (body s) "spin" end).
    { unfold b. cbn [set_state attr]. rewrite AB by exact ND. destruct (dget String.eqb (p_values p) "spin"); [reflexivity|]. apply nan_attr. cbn. intuition discriminate. }
    assert (BT : sstate b = p_state p) by reflexivity. clearbody b. clear AB.
    apply rbind_ok in H as ([rs tt] & R & H). apply rbind_ok in R as (r1 & R & R'). apply rbind_ok in R as (b1 & B1 & R).
    assert (NP : String.eqb t "PISN" = false). { destruct TK as [<-|[<-|[<-|[]]]]; reflexivity. } rewrite NP in R. apply rbind_ok in R as (lr & LR & R).
    assert (E : rs = Some (with_body (with_body s (none_to_nan (body s)) (SN_type s)) (setattr b1 "log_R" lr) (Some t))) by congruence. rewrite E in H. cbn [fst] in H.
    assert (O : o = Done (with_body (with_body s (none_to_nan (body s)) (SN_type s)) (setattr b1 "log_R" lr) (Some t))) by congruence. eexists. split; [exact O|]. cbn [with_body SN_type body setattr sstate]. split; [reflexivity|].
    (* what is kept *)
    assert (K : sstate b1 = p_state p /\ attr b1 "mass" = Some m /\ attr b1 "spin" = attr b "spin" /\ attr b1 "metallicity" = None
      /\ (p_state p <> "WD" -> forall k, In k STARPROPERTIES -> k <> "mass" -> k <> "spin" -> attr b1 k = None)
      /\ (p_state p = "WD" -> attr b1 "he_core_mass" = Some m /\ cleared [ "mass"; "spin"; "he_core_mass"; "co_core_mass"; "center_h1"; "center_he4"; "center_c12"; "center_n14"; "center_o16" ] b1)).
    { destruct (String.eqb_spec (sstate b) "WD") as [W|W].
      - destruct (wd_spec _ _ B1) as (nh & _ & W1 & W2). split; [congruence|]. split; [rewrite W2; exact BM|]. split; [rewrite W2; reflexivity|]. split; [rewrite W2; reflexivity|]. split; [congruence|]. intros _.
        split; [rewrite W2; exact BM|]. intros k K N. rewrite W2. apply mem_iff in K as K'. rewrite K'. unfold wd_new.
        assert (X : forall x, In x [ "mass"; "spin"; "he_core_mass"; "co_core_mass"; "center_h1"; "center_he4"; "center_c12"; "center_n14"; "center_o16" ] -> String.eqb k x = false) by (intros x Ix; apply String.eqb_neq; intros ->; apply N; exact Ix).
        rewrite (X "he_core_mass"), (X "co_core_mass") by (cbn; auto 12).
        assert (MK : mem k WD_KEPT = false). { apply mem_not. intros I. cbn [WD_KEPT In] in I. destruct I as [<-|[<-|[<-|[<-|I]]]]; try (apply N; cbn; auto 12; fail); revert K; apply mem_not; reflexivity. }
        rewrite MK. reflexivity.
      - assert (E1 : b1 = reset_except [ "mass"; "spin"; "m_disk_accreted"; "m_disk_radiated" ] b) by congruence. destruct (reset_spec [ "mass"; "spin"; "m_disk_accreted"; "m_disk_radiated" ] b ltac:(cbn; auto)) as [R1 R2]. rewrite <- E1 in R1, R2.
        split; [congruence|]. split; [rewrite R2; exact BM|]. split; [rewrite R2; reflexivity|]. split; [rewrite R2; reflexivity|]. split; [|intros X; exfalso; apply W; congruence]. intros _ k K N1 N2. rewrite R2. apply mem_iff in K as K'. rewrite K'.
        assert (MK : mem k [ "mass"; "spin"; "m_disk_accreted"; "m_disk_radiated" ] = false). { apply mem_not. intros [<-|[<-|[<-|[<-|[]]]]]; try congruence; revert K; apply mem_not; reflexivity. } rewrite MK. reflexivity. }
    destruct K as (K1 & K2 & K3 & K4 & K5 & K6). unfold co_log_R in LR. rewrite K2, K1 in LR. destruct (nle m (Fin 0)); [discriminate|]. destruct (mem (p_state p) ["BH"; "NS"; "WD"]) eqn:PI; [|discriminate]. apply mem_iff in PI.
    split; [exact K1|]. split; [exact PI|]. cbn [attr String.eqb Ascii.eqb Bool.eqb]. split; [exact K2|]. split; [injection LR as <-; reflexivity|]. split; [exact (eq_trans K3 BS)|]. split; [exact K4|]. split.
    - intros NW k K N. change ((if String.eqb k "log_R" then lr else attr b1 k) = None). assert (NL : String.eqb k "log_R" = false) by (apply String.eqb_neq; intros ->; apply N; cbn; auto). rewrite NL. apply K5; [exact NW|exact K|intros ->; apply N; cbn; auto|intros ->; apply N; cbn; auto].
    - intros WD. destruct (K6 WD) as [H1 H2]. split; [exact H1|]. intros k K N. change ((if String.eqb k "log_R" then lr else attr b1 k) = None). assert (NL : String.eqb k "log_R" = false) by (apply String.eqb_neq; intros ->; apply N; cbn; auto). rewrite NL.
      apply H2; [exact K|]. intros I. apply N. clear -I. cbn in *. intuition auto.
  Qed.
  (** Outcomes stored as pair-instability supernovae never fit. *)
  Theorem C79_pair_instability_refuted : forall c s p t, type_now c s t -> p_type p = "PISN" \/ p_type p = "PPISN" -> ~ fits t p.
  Proof using Type. intros c s p t TY P (_ & [E|E] & _); [|destruct P; congruence]. apply type_kinds in TY. destruct TY as [<-|[<-|[<-|[]]]]; destruct P; congruence. Qed.
End Stored.

(** ** What does not hold *)
(** A white dwarf made by the mechanism has no radius, though one is computed; one made from a stored outcome has it (C79_used). *)
Theorem C78_wd_radius_refuted : forall log10 lattimer engine Zsun cfg log_R_of ccBH ejecta spin_of model s s', In (mechanism cfg) MECHANISMS -> use_interp_values cfg = false ->
  use_profiles cfg = false \/ has_profile s = false -> collapse_star log10 lattimer engine Zsun cfg log_R_of ccBH ejecta spin_of model s = Ok (Done s') ->
  SN_type s' = Some "WD" -> sstate (body s') = "WD" /\ attr (body s') "log_R" = None.
Proof.
  intros log10 lattimer engine Zsun cfg log_R_of ccBH ejecta spin_of model s s' MM UI NP H T. destruct (C78_outcome _ _ _ _ _ _ _ _ _ _ _ _ MM UI NP H) as (_ & m & f & st & t & _ & T' & _ & O).
  assert (t = "WD") by congruence. destruct O as [(_ & W)|[(N & _)|(N & _)]]; [|contradiction..]. destruct W as (S1 & _ & _ & _ & _ & _ & W). split; [exact S1|]. apply W; [apply mem_iff; reflexivity|]. apply mem_not. reflexivity.
Qed.
(** The decision of an engine between neutron star and black hole is ignored without a profile; with one, a black hole below the maximal mass of
    neutron stars makes the collapse fail, and a neutron star above it is accepted. *)
Definition CFGE (mech : string) (prof cores : bool) : config := Config mech NoPISN None None (Some "Tauris+15") false false (5 # 10) (25 # 10) false prof cores false.
Definition VALUES (c h m : Q) : string -> pnum := fun k =>
  if String.eqb k "mass" then fin m else if String.eqb k "co_core_mass" then fin c else if String.eqb k "he_core_mass" then fin h else if String.eqb k "metallicity" then fin 1
  else if String.eqb k "center_he4" then fin 0 else if String.eqb k "log_total_angular_momentum" then fin 50 else None.
Definition S0 (c h m : Q) : sstar := let r := Row "stripped_He_Core_C_depleted" (fin m) (fin c) (fin h) in SStar (Star "stripped_He_Core_C_depleted" (VALUES c h m)) None true None r (fin (1 # 2)).
Definition RUN (st : string) (q : Q) (cfg : config) (s : sstar) : result outcome :=
  collapse_star (fun _ => 0) (fun m => m - (1 # 10)) (fun _ => Ok (fin q, fin (1 # 2), Some st)) 1 cfg (fun m _ => m) (fun _ M _ _ => Ok (BH (fin M) (fin (3 # 10)) (fin 0) (fin 0) []))
    (fun _ _ => Ok (fin 1, fin 2)) (fun _ _ => Fin (1 # 5)) false s.
Definition state_of (r : result outcome) : string := match r with Ok (Done s) => sstate (body s) | Ok (Failed m) => m | Raise _ => "raised" end.
Theorem C78_engine_state_refuted :
  state_of (RUN "NS" 5 (CFGE "Sukhbold+16-engine" false true) (S0 3 5 9)) = "BH" /\ state_of (RUN "NS" 5 (CFGE "Sukhbold+16-engine" true true) (S0 3 5 9)) = "NS"
  /\ state_of (RUN "BH" 2 (CFGE "Sukhbold+16-engine" false true) (S0 3 5 9)) = "NS"
  /\ state_of (RUN "BH" 2 (CFGE "Sukhbold+16-engine" true true) (S0 3 5 9)) = "FAILED core collapse! (Invalid core state: BH)".
Proof. repeat split; vm_compute; reflexivity. Qed.

(** ** Examples *)
Example outcome_example : exists s', RUN "" 0 (CFGE "direct" false true) (S0 3 5 9) = Ok (Done s') /\ sstate (body s') = "BH" /\ attr (body s') "spin" = fin (1 # 5)
  /\ attr (body s') "metallicity" = fin (1 # 2) /\ attr (body s') "he_core_mass" = None /\ attr (body s') "co_core_mass" = fin 3.
Proof. eexists. split; [vm_compute; reflexivity|]. repeat split. Qed.
Example wd_example : exists s', RUN "" 0 (CFGE "direct" false true) (S0 (12 # 10) (13 # 10) 9) = Ok (Done s') /\ sstate (body s') = "WD" /\ attr (body s') "mass" = fin (12 # 10) /\ attr (body s') "he_core_mass" = fin (12 # 10).
Proof. eexists. split; [vm_compute; reflexivity|]. repeat split. Qed.
Example profile_example : exists s', RUN "" 0 (CFGE "direct" true false) (S0 3 5 9) = Ok (Done s') /\ sstate (body s') = "BH" /\ attr (body s') "mass" = fin 5 /\ attr (body s') "spin" = fin (3 # 10) /\ attr (body s') "h1_mass_ej" = fin 1.
Proof. eexists. split; [vm_compute; reflexivity|]. repeat split. Qed.
Example failed_example : state_of (RUN "" 0 (CFGE "direct" false false) (S0 3 5 9)) = "FAILED core collapse!".
Proof. vm_compute. reflexivity. Qed.
Definition CFGI : config := Config "direct" NoPISN None None (Some "Tauris+15") false false (5 # 10) (25 # 10) true false true false.
Definition S1 : sstar := let s := S0 3 5 9 in SStar (body s) None false (Some (SNProps "CCSN" "NS" [ ("mass", fin (14 # 10)); ("spin", fin 0) ])) (last_row s) (last_Z s).
Definition RUNI (s : sstar) : result outcome :=
  collapse_star (fun _ => 0) (fun m => m - (1 # 10)) (fun _ => Raise ValueError) 1 CFGI (fun m _ => m) (fun _ M _ _ => Ok (BH (fin M) (fin (3 # 10)) (fin 0) (fin 0) []))
    (fun _ _ => Ok (fin 1, fin 2)) (fun _ _ => Fin (1 # 5)) true s.
Example used_example : (exists s', RUNI S1 = Ok (Done s') /\ sstate (body s') = "NS" /\ attr (body s') "mass" = fin (14 # 10) /\ attr (body s') "metallicity" = None)
  /\ type_now CFGI S1 "CCSN" /\ fits "CCSN" (SNProps "CCSN" "NS" [ ("mass", fin (14 # 10)); ("spin", fin 0) ]).
Proof.
  split; [eexists; split; [vm_compute; reflexivity|repeat split]|]. split; [do 3 eexists; vm_compute; reflexivity|]. unfold fits. cbn. repeat split; try discriminate; auto. intros [?|?]; discriminate.
Qed.
Example ignored_example : state_of (RUNI (let s := S0 3 5 9 in SStar (body s) None false (Some (SNProps "PPISN" "BH" [ ("mass", fin 30) ])) (last_row s) (last_Z s))) = "BH"
  /\ ~ fits "CCSN" (SNProps "PPISN" "BH" [ ("mass", fin 30) ]).
Proof. split; [vm_compute; reflexivity|]. intros (_ & [E|E] & _); discriminate. Qed.

Print Assumptions C78_outcome.
Print Assumptions C78_profile.
Print Assumptions C78_failed.
Print Assumptions C78_wd_radius_refuted.
Print Assumptions C78_engine_state_refuted.
Print Assumptions C79_ignored.
Print Assumptions C79_absent.
Print Assumptions C79_used.
Print Assumptions C79_pair_instability_refuted.
