(** C74: remnant masses and fallback fractions. *)
From Coq Require Import String List Bool ZArith QArith Lqa Lia Psatz.
From Verif Require Import PyBase PyNum PyStr MTModel FlowChartModel MergeModel SNModel SNTypeProps.
Import ListNotations.
Open Scope string_scope.
Open Scope list_scope.
Open Scope Q_scope.

(** ** Specification *)
(** The remnant of a core-collapse supernova as a function of the CO core mass [c] and the collapsing mass [M]; the rapid engine. *)
Definition rapid_remnant (c M m : Q) : Prop :=
  (c < 25 # 10 -> m == 13 # 10) /\ ((25 # 10) <= c < 6 -> m == (286 # 1000) * c + (586 # 1000)) /\ (6 <= c < 7 -> m == M)
  /\ (7 <= c < 11 -> m == M - (11 - c) * ((25 # 100) * (M - (11 # 10)) - (1275 # 1000))) /\ (11 <= c -> m == M).
(** The delayed engine, with the proto-remnant [p]. *)
Definition delayed_start (c p : Q) : Prop :=
  (c < 35 # 10 -> p == 12 # 10) /\ ((35 # 10) <= c < 6 -> p == 13 # 10) /\ (6 <= c < 11 -> p == 14 # 10) /\ (11 <= c -> p == 16 # 10).
Definition delayed_remnant (c M p m : Q) : Prop :=
  (c < 25 # 10 -> m == 14 # 10) /\ ((25 # 10) <= c < 35 # 10 -> m == (5 # 10) * c + (15 # 100))
  /\ ((35 # 10) <= c < 11 -> m == M - (11 - c) * ((133 # 1000) * (M - p) - (93 # 1000))) /\ (11 < c -> m == M).
(** Fallback: the remnant is the proto-remnant and the fraction [f] of what is left. *)
Definition falls_back (M p f m : Q) : Prop := m == p + f * (M - p).

Lemma qdiv_some a b : ~ b == 0 -> qdiv a b = Ok (a / b).
Proof. intros N. unfold qdiv. destruct (Qeq_bool b 0) eqn:E; [apply Qeq_bool_eq in E; contradiction|reflexivity]. Qed.
Lemma qdiv_ok a b q : qdiv a b = Ok q -> ~ b == 0 /\ q * b == a.
Proof.
  unfold qdiv. destruct (Qeq_bool b 0) eqn:E; [discriminate|]. intros H. assert (q = a / b) as -> by congruence.
  assert (~ b == 0) by (intros Z; apply Qeq_bool_iff in Z; congruence). split; [assumption|]. field. assumption.
Qed.
Lemma rbind_ok {A B} (x : result A) (f : A -> result B) y : rbind x f = Ok y -> exists a, x = Ok a /\ f a = Ok y.
Proof. destruct x; cbn; [eauto|discriminate]. Qed.
Lemma pair_ok {A B} (a : A) (b : B) x y : Ok (a, b) = Ok (x, y) -> x = a /\ y = b.
Proof. intros E. split; congruence. Qed.

Lemma rapid_spec e t c M m f : t <> "ECSN" -> rapid e t c M = Ok (m, f) -> rapid_remnant c M m /\ falls_back M (11 # 10) f m.
Proof.
  intros T. unfold rapid. cbv zeta. apply String.eqb_neq in T. rewrite T. unfold rapid_remnant, falls_back.
  destruct (qlt_spec c (25 # 10)).
  { intros H. apply rbind_ok in H as (d & D & H). apply qdiv_ok in D as (N & D). apply pair_ok in H as (-> & ->). split; [|lra]. repeat split; intros; lra. }
  destruct (qle_spec (25 # 10) c); [|lra]. destruct (qlt_spec c 6); cbn [andb].
  { intros H. apply rbind_ok in H as (d & D & H). apply qdiv_ok in D as (N & D). apply pair_ok in H as (-> & ->). split; [|lra]. repeat split; intros; lra. }
  destruct (qle_spec 6 c); [|lra]. destruct (qlt_spec c 7); cbn [andb].
  { intros H. apply pair_ok in H as (-> & ->). split; [|lra]. repeat split; intros; lra. }
  destruct (qle_spec 7 c); [|lra]. destruct (qlt_spec c 11); cbn [andb].
  { intros H. apply rbind_ok in H as (d & D & H). apply qdiv_ok in D as (N & D). apply pair_ok in H as (-> & ->). split; [|lra]. repeat split; intros; try lra.
    assert (A : (11 - c) * (d * (M - (11 # 10)) - (1275 # 1000)) == 0) by (rewrite D; ring). clear D N T. nra. }
  destruct (qle_spec 11 c); [|lra]. intros H. apply pair_ok in H as (-> & ->). split; [|lra]. repeat split; intros; lra.
Qed.
Lemma delayed_proto_spec c : exists p, delayed_proto c = Some p /\ delayed_start c p.
Proof.
  unfold delayed_proto, delayed_start. destruct (qlt_spec c (35 # 10)); [eexists; split; [reflexivity|]; repeat split; intros; lra|].
  destruct (qle_spec (35 # 10) c); [|lra]. destruct (qlt_spec c 6); cbn [andb]; [eexists; split; [reflexivity|]; repeat split; intros; lra|].
  destruct (qle_spec 6 c); [|lra]. destruct (qlt_spec c 11); cbn [andb]; [eexists; split; [reflexivity|]; repeat split; intros; lra|].
  destruct (qle_spec 11 c); [|lra]. eexists; split; [reflexivity|]; repeat split; intros; lra.
Qed.
Lemma delayed_spec e t c M m f : t <> "ECSN" -> delayed e t c M = Ok (m, f) -> exists p, delayed_start c p /\ delayed_remnant c M p m /\ falls_back M p f m /\ ~ c == 11.
Proof.
  intros T. unfold delayed. cbv zeta. destruct (delayed_proto_spec c) as (p & -> & P). apply String.eqb_neq in T. rewrite T. intros H. exists p. split; [exact P|].
  revert H. unfold delayed_remnant, falls_back. destruct P as (P1 & P2 & P3 & P4).
  destruct (qlt_spec c (25 # 10)).
  { intros H. apply rbind_ok in H as (d & D & H). apply qdiv_ok in D as (N & D). apply pair_ok in H as (-> & ->). specialize (P1 ltac:(lra)). split; [|split; lra]. repeat split; intros; lra. }
  destruct (qle_spec (25 # 10) c); [|lra]. destruct (qlt_spec c (35 # 10)); cbn [andb].
  { intros H. apply rbind_ok in H as (d & D & H). apply qdiv_ok in D as (N & D). apply pair_ok in H as (-> & ->). specialize (P1 ltac:(lra)). split; [|split; lra]. repeat split; intros; lra. }
  destruct (qle_spec (35 # 10) c); [|lra]. destruct (qlt_spec c 11); cbn [andb].
  { intros H. apply rbind_ok in H as (d & D & H). apply qdiv_ok in D as (N & D). apply pair_ok in H as (-> & ->). split; [|split; lra]. repeat split; intros; try lra.
    assert (A : (11 - c) * (d * (M - p) - (93 # 1000)) == 0) by (rewrite D; ring). clear -A. nra. }
  destruct (qlt_spec 11 c); [|discriminate]. intros H. apply pair_ok in H as (-> & ->). split; [|split; lra]. repeat split; intros; lra.
Qed.

(** ** Theorems *)
(** The star is about to collapse and its cores are nested. *)
Definition collapsing (now : row) (c h s : Q) : Prop := In (r_state now) CC_STATES /\ r_co now = fin c /\ r_he now = fin h /\ r_mass now = fin s.
Definition nested (c h s : Q) : Prop := 0 <= c /\ c <= h /\ h <= s.
Definition total (cfg : config) (h s : Q) : Q := if conserve_hydrogen_envelope cfg then s else h.
Lemma mem_in k l : In k l -> mem k l = true.
Proof. intros H. apply existsb_exists. exists k. split; [exact H|apply String.eqb_refl]. Qed.

Lemma rembar_ok engine cfg now last c h s P m f st t : collapsing now c h s -> compute_m_rembar engine cfg now last P = Ok (m, f, st, t) ->
  (t = "WD" /\ st = Some "WD" /\ f = fin 1 /\ exists w, m = fin w /\ wd_of c h s w)
  \/ exists t0 m0, check_SN_type (ECSN cfg) (fin c) (fin h) (fin s) = Ok (None, None, None, t0) /\ t0 <> "WD"
     /\ mechanism_rembar engine cfg now t0 c (total cfg h s) = Ok (m0, f, st) /\ limit_by_PISN P t0 m0 = Ok (m, t).
Proof.
  intros (I & Hc & Hh & Hs). unfold compute_m_rembar. rewrite (mem_in _ _ I). cbn [rbind]. rewrite Hc, Hh, Hs. cbn [isna fin].
  change (Some (Fin c)) with (fin c). change (Some (Fin h)) with (fin h). change (Some (Fin s)) with (fin s).
  intros H. apply rbind_ok in H as (o & O & H). destruct (C73_white_dwarf _ _ _ _ _ O) as [(K & w & W & E)|(K & E)].
  - left. rewrite E in H. cbv beta iota in H. cbn [String.eqb Ascii.eqb Bool.eqb] in H. cbv iota in H.
    assert (A : (m, f, st, t) = (fin w, fin 1, Some "WD", "WD")) by (injection H; intros; subst; reflexivity).
    injection A as -> -> -> ->. repeat split; eauto.
  - right. rewrite E in H. cbv beta iota in H. remember (kind o) as t0 eqn:T0. clear T0. apply String.eqb_neq in K as K'. rewrite K' in H.
    apply rbind_ok in H as (c' & C' & H). assert (c' = c) by (unfold finite, fin in C'; congruence). subst c'.
    apply rbind_ok in H as (M & TM & H). assert (M = total cfg h s) by (unfold total; destruct (conserve_hydrogen_envelope cfg); unfold finite, fin in TM; congruence). subst M.
    apply rbind_ok in H as ([[m0 f0] st0] & R & H). cbv beta iota in H. apply rbind_ok in H as ([m1 t1] & L & H). cbn [fst snd] in H.
    assert (A : m = m1 /\ f = f0 /\ st = st0 /\ t = t1) by (injection H; intros; auto). destruct A as (-> & -> & -> & ->).
    exists t0, m0. rewrite E in O. repeat split; assumption.
Qed.

(** The three mechanisms that are formulas: the remnant of a star that is no white dwarf. *)
Theorem C74_rapid : forall engine cfg now last c h s m f st, mechanism cfg = "Fryer+12-rapid" -> collapsing now c h s ->
  compute_m_rembar engine cfg now last None = Ok (m, f, st, "CCSN") ->
  exists m' f', m = fin m' /\ f = fin f' /\ st = None /\ rapid_remnant c (total cfg h s) m' /\ falls_back (total cfg h s) (11 # 10) f' m'.
Proof.
  intros engine cfg now last c h s m f st Mc C H. destruct (rembar_ok _ _ _ _ _ _ _ _ _ _ _ _ C H) as [(X & _)|(t0 & m0 & O & N & R & L)]; [discriminate X|].
  cbn [limit_by_PISN] in L. assert (m0 = m /\ t0 = "CCSN") as [-> ->] by (split; congruence). unfold mechanism_rembar in R. rewrite Mc in R. cbn [String.eqb Ascii.eqb Bool.eqb] in R.
  apply rbind_ok in R as ([m' f'] & R & E). cbn [fst snd] in E. exists m', f'. assert (NE : "CCSN" <> "ECSN") by discriminate. destruct (rapid_spec _ _ _ _ _ _ NE R) as [A B].
  repeat split; try congruence; try exact B; apply A.
Qed.
Theorem C74_delayed : forall engine cfg now last c h s m f st, mechanism cfg = "Fryer+12-delayed" -> collapsing now c h s ->
  compute_m_rembar engine cfg now last None = Ok (m, f, st, "CCSN") ->
  exists m' f' p, m = fin m' /\ f = fin f' /\ st = None /\ delayed_start c p /\ delayed_remnant c (total cfg h s) p m' /\ falls_back (total cfg h s) p f' m' /\ ~ c == 11.
Proof.
  intros engine cfg now last c h s m f st Mc C H. destruct (rembar_ok _ _ _ _ _ _ _ _ _ _ _ _ C H) as [(X & _)|(t0 & m0 & O & N & R & L)]; [discriminate X|].
  cbn [limit_by_PISN] in L. assert (m0 = m /\ t0 = "CCSN") as [-> ->] by (split; congruence). unfold mechanism_rembar in R. rewrite Mc in R. cbn [String.eqb Ascii.eqb Bool.eqb] in R.
  apply rbind_ok in R as ([m' f'] & R & E). cbn [fst snd] in E. assert (NE : "CCSN" <> "ECSN") by discriminate. destruct (delayed_spec _ _ _ _ _ _ NE R) as (p & A & B & F & N11).
  exists m', f', p. split; [congruence|]. split; [congruence|]. split; [congruence|]. auto.
Qed.
(** Electron-capture supernovae: no fallback, and the core (or 1.38 solar masses) remains, whatever the mechanism. *)
Theorem C74_ecsn : forall engine cfg now last c h s m f st, mechanism cfg <> "direct" -> collapsing now c h s ->
  compute_m_rembar engine cfg now last None = Ok (m, f, st, "ECSN") ->
  f = fin 0 /\ exists m', m = fin m' /\ (ECSN cfg = Some "Podsiadlowski+04" /\ m' == 138 # 100 \/ ECSN cfg = Some "Tauris+15" /\ m' == c).
Proof.
  intros engine cfg now last c h s m f st Md C H. destruct (rembar_ok _ _ _ _ _ _ _ _ _ _ _ _ C H) as [(X & _)|(t0 & m0 & O & N & R & L)]; [discriminate X|].
  cbn [limit_by_PISN] in L. assert (m0 = m /\ t0 = "ECSN") as [-> ->] by (split; congruence).
  assert (EP : ECSN cfg = Some "Podsiadlowski+04" /\ ecsn_proto (ECSN cfg) c + 0 == 138 # 100 \/ ECSN cfg = Some "Tauris+15" /\ ecsn_proto (ECSN cfg) c + 0 == c).
  { destruct (ECSN cfg) as [e|]; [|exfalso; apply C73_no_ecsn in O; destruct O as [[_ K]|[_ K]]; discriminate].
    destruct (String.eqb_spec e "Podsiadlowski+04") as [-> |NP]; [left; split; [reflexivity|]; cbn [ecsn_proto String.eqb Ascii.eqb Bool.eqb]; lra|].
    destruct (String.eqb_spec e "Tauris+15") as [-> |NT]; [right; split; [reflexivity|]; cbn [ecsn_proto String.eqb Ascii.eqb Bool.eqb]; lra|].
    rewrite C73_unknown in O by assumption. discriminate. }
  unfold mechanism_rembar in R. destruct (String.eqb (mechanism cfg) "Fryer+12-rapid").
  { apply rbind_ok in R as ([m' f'] & R & E). cbn [fst snd] in E. unfold rapid in R. cbn [String.eqb Ascii.eqb Bool.eqb] in R. cbv zeta in R. apply pair_ok in R as (-> & ->).
    split; [congruence|]. eexists. split; [|exact EP]. congruence. }
  destruct (String.eqb (mechanism cfg) "Fryer+12-delayed").
  { apply rbind_ok in R as ([m' f'] & R & E). cbn [fst snd] in E. unfold delayed in R. destruct (delayed_proto_spec c) as (p & Dp & _). rewrite Dp in R. cbn [String.eqb Ascii.eqb Bool.eqb] in R. cbv zeta in R.
    apply pair_ok in R as (-> & ->). split; [congruence|]. eexists. split; [|exact EP]. congruence. }
  apply String.eqb_neq in Md. rewrite Md in R. destruct (mem (mechanism cfg) ENGINES); [|discriminate]. cbn [String.eqb Ascii.eqb Bool.eqb] in R.
  split; [congruence|]. eexists. split; [|exact EP]. congruence.
Qed.
Theorem C74_direct : forall engine cfg now last c h s m f st t, mechanism cfg = "direct" -> collapsing now c h s ->
  compute_m_rembar engine cfg now last None = Ok (m, f, st, t) -> t <> "WD" -> m = fin (total cfg h s) /\ f = fin 1 /\ st = None.
Proof.
  intros engine cfg now last c h s m f st t Mc C H N. destruct (rembar_ok _ _ _ _ _ _ _ _ _ _ _ _ C H) as [(X & _)|(t0 & m0 & O & _ & R & L)]; [congruence|].
  cbn [limit_by_PISN] in L. unfold mechanism_rembar in R. rewrite Mc in R. cbn [String.eqb Ascii.eqb Bool.eqb] in R. repeat split; congruence.
Qed.

(** Remnants are never heavier than what collapses, and fallback fractions are fractions: for all nested cores, with one exception. *)
Lemma rapid_bounds c M m f : 0 <= c -> c <= M -> (13 # 10) <= M -> rapid_remnant c M m -> falls_back M (11 # 10) f m -> (11 # 10) <= m <= M /\ 0 <= f <= 1.
Proof.
  unfold rapid_remnant, falls_back. intros C0 CM MM (A & B & D & E & G) F.
  assert (K : (11 # 10) <= m <= M).
  { destruct (Qlt_le_dec c (25 # 10)) as [L|L]; [specialize (A L); lra|]. destruct (Qlt_le_dec c 6) as [L1|L1]; [specialize (B (conj L L1)); lra|].
    destruct (Qlt_le_dec c 7) as [L2|L2]; [specialize (D (conj L1 L2)); lra|]. destruct (Qlt_le_dec c 11) as [L3|L3]; [|specialize (G L3); lra].
    specialize (E (conj L2 L3)). set (x := M - (11 # 10)) in *. assert (X : 0 <= (25 # 100) * x - (1275 # 1000)) by (unfold x; lra). assert (MX : M == x + (11 # 10)) by (unfold x; lra).
    split; [|nra]. rewrite E, MX. assert (0 <= (c - 7) * ((25 # 100) * x - (1275 # 1000))) by nra. nra. }
  split; [exact K|]. assert (P : 0 < M - (11 # 10)) by lra. assert (Q1 : f * (M - (11 # 10)) == m - (11 # 10)) by lra.
  split; apply Qnot_lt_le; intros X; nra.
Qed.
Lemma delayed_bounds c M p m f : 0 <= c -> c <= M -> (14 # 10) <= M -> ~ c == 11 -> delayed_start c p -> delayed_remnant c M p m -> falls_back M p f m -> (12 # 10) <= m <= M /\ 0 <= f <= 1.
Proof.
  unfold delayed_start, delayed_remnant, falls_back. intros C0 CM MM N (P1 & P2 & P3 & P4) (A & B & D & E) F.
  assert (K : p <= m <= M /\ (12 # 10) <= p < M).
  { destruct (Qlt_le_dec c (25 # 10)) as [L|L]; [specialize (A L); specialize (P1 ltac:(lra)); lra|].
    destruct (Qlt_le_dec c (35 # 10)) as [L1|L1]; [specialize (B (conj L L1)); specialize (P1 L1); lra|].
    destruct (Qlt_le_dec c 11) as [L2|L2]; [|assert (11 < c) by (apply Qle_lt_or_eq in L2 as [X|X]; [exact X|exfalso; apply N; symmetry; exact X]); specialize (E H); specialize (P4 L2); lra].
    specialize (D (conj L1 L2)). assert (PP : (13 # 10) <= p <= 14 # 10) by (destruct (Qlt_le_dec c 6) as [L3|L3]; [specialize (P2 (conj L1 L3))|specialize (P3 (conj L3 L2))]; lra).
    clear -D PP L1 L2 CM. set (x := M - p) in *. assert (MX : M == x + p) by (unfold x; lra). assert (X : (21 # 10) <= x) by (unfold x; lra).
    assert (G : 0 <= (133 # 1000) * x - (93 # 1000)) by lra. split; [|lra]. split; [|nra]. rewrite D, MX.
    assert (0 <= (c - (35 # 10)) * ((133 # 1000) * x - (93 # 1000))) by nra. nra. }
  destruct K as [K Kp]. split; [lra|]. assert (P : 0 < M - p) by lra. assert (Q1 : f * (M - p) == m - p) by lra.
  split; apply Qnot_lt_le; intros X; nra.
Qed.
Definition formula (cfg : config) : Prop := In (mechanism cfg) [ "Fryer+12-rapid"; "Fryer+12-delayed"; "direct" ].
Theorem C74_bounds : forall engine cfg now last c h s m f st t, formula cfg -> collapsing now c h s -> nested c h s ->
  (ECSN cfg = None -> mechanism cfg = "Fryer+12-delayed" -> (14 # 10) <= total cfg h s) ->
  compute_m_rembar engine cfg now last None = Ok (m, f, st, t) -> t <> "WD" ->
  exists m' f', m = fin m' /\ f = fin f' /\ st = None /\ (11 # 10) <= m' <= total cfg h s /\ 0 <= f' <= 1.
Proof.
  intros engine cfg now last c h s m f st t Fo C (N0 & N1 & N2) X H NW. destruct (rembar_ok _ _ _ _ _ _ _ _ _ _ _ _ C H) as [(Y & _)|(t0 & m0 & O & N & R & L)]; [congruence|].
  cbn [limit_by_PISN] in L. assert (m0 = m /\ t0 = t) as [-> ->] by (split; congruence).
  set (M := total cfg h s) in *. assert (HM : h <= M) by (unfold M, total; destruct (conserve_hydrogen_envelope cfg); lra).
  (* the smallest collapsing mass *)
  assert (MB : (137 # 100) <= M /\ (ECSN cfg <> None -> (14 # 10) <= M \/ t = "ECSN") /\ (t = "ECSN" -> ecsn_proto (ECSN cfg) c <= M /\ (11 # 10) <= ecsn_proto (ECSN cfg) c)).
  { destruct (ECSN cfg) as [e|] eqn:EE.
    - destruct (String.eqb_spec e "Podsiadlowski+04") as [-> |NP].
      + apply C73_he_core in O. unfold kind, typed in O. cbn [snd] in O. cbn [ecsn_proto String.eqb Ascii.eqb Bool.eqb].
        destruct O as [[_ O]|[O|[O1 O2]]]; [congruence| |]; (split; [lra|]); (split; [intros _; left; lra|intros; lra]).
      + destruct (String.eqb_spec e "Tauris+15") as [-> |NT]; [|rewrite C73_unknown in O by assumption; discriminate].
        apply C73_co_core in O. unfold kind, typed in O. cbn [snd] in O. cbn [ecsn_proto String.eqb Ascii.eqb Bool.eqb].
        destruct O as [[_ O]|[[O1 O2]|[O1 O2]]]; [congruence| |]; (split; [lra|]).
        * split; [intros _; right; exact O2|intros; lra].
        * split; [intros _; left; lra|intros; lra].
    - apply C73_no_ecsn in O. unfold kind in O. cbn [snd] in O. destruct O as [[_ O]|[O1 O2]]; [congruence|]. split; [lra|]. split; [congruence|]. intros Z. congruence. }
  destruct MB as (M1 & M2 & M3).
  destruct (String.eqb_spec t "ECSN") as [Te|Te].
  { destruct (M3 Te) as [Ma Mb]. unfold mechanism_rembar in R. destruct Fo as [Fo|[Fo|[Fo|[]]]]; rewrite <- Fo in R; cbn [String.eqb Ascii.eqb Bool.eqb] in R.
    - apply rbind_ok in R as ([m' f'] & R & E). cbn [fst snd] in E. unfold rapid in R. cbv zeta in R. rewrite Te in R. cbn [String.eqb Ascii.eqb Bool.eqb] in R. apply pair_ok in R as (-> & ->).
      exists (ecsn_proto (ECSN cfg) c + 0), 0. repeat split; try congruence; lra.
    - apply rbind_ok in R as ([m' f'] & R & E). cbn [fst snd] in E. unfold delayed in R. destruct (delayed_proto_spec c) as (p & Dp & _). cbv zeta in R. rewrite Dp, Te in R. cbn [String.eqb Ascii.eqb Bool.eqb] in R. apply pair_ok in R as (-> & ->).
      exists (ecsn_proto (ECSN cfg) c + 0), 0. repeat split; try congruence; lra.
    - exists M, 1. repeat split; try congruence; lra. }
  unfold mechanism_rembar in R. destruct Fo as [Fo|[Fo|[Fo|[]]]]; rewrite <- Fo in R; cbn [String.eqb Ascii.eqb Bool.eqb] in R.
  - apply rbind_ok in R as ([m' f'] & R & E). cbn [fst snd] in E. destruct (rapid_spec _ _ _ _ _ _ Te R) as [A B].
    assert (CM : c <= M) by lra. assert (M13 : (13 # 10) <= M) by lra. destruct (rapid_bounds c M m' f' N0 CM M13 A B) as [K1 K2]. exists m', f'. repeat split; try congruence; lra.
  - apply rbind_ok in R as ([m' f'] & R & E). cbn [fst snd] in E. destruct (delayed_spec _ _ _ _ _ _ Te R) as (p & P & A & B & N11).
    assert (CM : c <= M) by lra. assert (M14 : (14 # 10) <= M) by (destruct (ECSN cfg); [destruct M2; [discriminate|assumption|congruence]|apply X; [reflexivity|symmetry; exact Fo]]).
    destruct (delayed_bounds c M p m' f' N0 CM M14 N11 P A B) as [K1 K2]. exists m', f'. repeat split; try congruence; lra.
  - exists M, 1. repeat split; try congruence; lra.
Qed.
(** For a fixed collapsing mass a heavier CO core never gives a lighter remnant with the delayed engine. *)
Lemma above c : ~ c == 11 -> 11 <= c -> 11 < c.
Proof. intros N L. apply Qle_lt_or_eq in L as [X|X]; [exact X|exfalso; apply N; symmetry; exact X]. Qed.
Lemma middle_start c p : (35 # 10) <= c -> c < 11 -> delayed_start c p -> (13 # 10) <= p <= 14 # 10.
Proof.
  intros L U (_ & P2 & P3 & _). destruct (Qlt_le_dec c 6) as [L3|L3]; [specialize (P2 (conj L L3))|specialize (P3 (conj L3 U))]; lra.
Qed.
Lemma start_grows c c' p p' : (35 # 10) <= c -> c <= c' -> c' < 11 -> delayed_start c p -> delayed_start c' p' -> p <= p'.
Proof.
  intros L CC U P P'. assert (U0 : c < 11) by lra. assert (L' : (35 # 10) <= c') by lra. assert (R' := middle_start _ _ L' U P').
  destruct P as (_ & P2 & P3 & _). destruct (Qlt_le_dec c 6) as [L3|L3]; [specialize (P2 (conj L L3)); lra|]. specialize (P3 (conj L3 U0)).
  destruct P' as (_ & _ & P3' & _). assert (V : 6 <= c') by lra. specialize (P3' (conj V U)). lra.
Qed.
Lemma delayed_low c M p m : c < 35 # 10 -> delayed_remnant c M p m -> m <= 19 # 10.
Proof. intros U (A & B & _ & _). destruct (Qlt_le_dec c (25 # 10)) as [L|L]; [specialize (A L); lra|specialize (B (conj L U)); lra]. Qed.
Lemma delayed_high c M p m : 0 <= c -> c <= M -> (14 # 10) <= M -> ~ c == 11 -> delayed_start c p -> delayed_remnant c M p m -> m <= M.
Proof.
  intros C0 CM MM N P A. destruct (Qlt_le_dec c (35 # 10)) as [L1|L1].
  { destruct A as (A & B & _ & _). destruct (Qlt_le_dec c (25 # 10)) as [L|L]; [specialize (A L); lra|specialize (B (conj L L1)); lra]. }
  destruct (Qlt_le_dec c 11) as [L2|L2]; [|destruct A as (_ & _ & _ & E); specialize (E (above _ N L2)); lra].
  assert (R := middle_start _ _ L1 L2 P). destruct A as (_ & _ & D & _). specialize (D (conj L1 L2)).
  assert (0 <= (11 - c) * ((133 # 1000) * (M - p) - (93 # 1000))) by (apply Qmult_le_0_compat; lra). lra.
Qed.
Lemma slope_grows c c' M p p' : c <= c' -> c' < 11 -> p <= p' -> 0 <= (133 # 1000) * (M - p') - (93 # 1000) ->
  M - (11 - c) * ((133 # 1000) * (M - p) - (93 # 1000)) <= M - (11 - c') * ((133 # 1000) * (M - p') - (93 # 1000)).
Proof.
  intros CC U PP G. assert (H1 : 0 <= (c' - c) * ((133 # 1000) * (M - p') - (93 # 1000))) by (apply Qmult_le_0_compat; lra).
  assert (H2 : 0 <= (11 - c) * (p' - p)) by (apply Qmult_le_0_compat; lra).
  setoid_replace ((11 - c) * ((133 # 1000) * (M - p) - (93 # 1000))) with ((11 - c') * ((133 # 1000) * (M - p') - (93 # 1000)) + (c' - c) * ((133 # 1000) * (M - p') - (93 # 1000)) + (133 # 1000) * ((11 - c) * (p' - p))) by ring.
  revert H1 H2. generalize ((c' - c) * ((133 # 1000) * (M - p') - (93 # 1000))) ((11 - c) * (p' - p)) ((11 - c') * ((133 # 1000) * (M - p') - (93 # 1000))). intros. lra.
Qed.
Lemma slope_low c' M p' : (35 # 10) <= c' -> c' <= M -> (13 # 10) <= p' <= 14 # 10 -> (19 # 10) <= M - (11 - c') * ((133 # 1000) * (M - p') - (93 # 1000)).
Proof.
  intros L CM R. assert (H : 0 <= (c' - (35 # 10)) * ((133 # 1000) * (M - p') - (93 # 1000))) by (apply Qmult_le_0_compat; lra).
  setoid_replace ((11 - c') * ((133 # 1000) * (M - p') - (93 # 1000))) with ((75 # 10) * ((133 # 1000) * (M - p') - (93 # 1000)) - (c' - (35 # 10)) * ((133 # 1000) * (M - p') - (93 # 1000))) by ring.
  revert H. generalize ((c' - (35 # 10)) * ((133 # 1000) * (M - p') - (93 # 1000))). intros. lra.
Qed.
Lemma delayed_monotone : forall c c' M p p' m m', 0 <= c -> c <= c' -> c' <= M -> (14 # 10) <= M -> ~ c == 11 -> ~ c' == 11 ->
  delayed_start c p -> delayed_remnant c M p m -> delayed_start c' p' -> delayed_remnant c' M p' m' -> m <= m'.
Proof.
  intros c c' M p p' m m' C0 CC CM MM N N' P A P' A'. assert (CM0 : c <= M) by lra. assert (UP := delayed_high c M p m C0 CM0 MM N P A).
  destruct (Qlt_le_dec c' 11) as [L2'|L2']; [|destruct A' as (_ & _ & _ & E'); specialize (E' (above _ N' L2')); lra].
  destruct (Qlt_le_dec c' (35 # 10)) as [L1'|L1'].
  { destruct A as (A & B & _ & _). destruct A' as (A' & B' & _ & _). assert (U : c < 35 # 10) by lra.
    destruct (Qlt_le_dec c' (25 # 10)) as [L'|L']; [assert (V : c < 25 # 10) by lra; specialize (A' L'); specialize (A V); lra|]. specialize (B' (conj L' L1')).
    destruct (Qlt_le_dec c (25 # 10)) as [L|L]; [specialize (A L); lra|]. specialize (B (conj L U)). lra. }
  assert (R' := middle_start _ _ L1' L2' P'). destruct A' as (_ & _ & D' & _). specialize (D' (conj L1' L2')). rewrite D'.
  destruct (Qlt_le_dec c (35 # 10)) as [L1|L1].
  - apply Qle_trans with (19 # 10); [exact (delayed_low _ _ _ _ L1 A)|apply slope_low; assumption].
  - assert (U : c < 11) by lra. destruct A as (_ & _ & D & _). specialize (D (conj L1 U)). rewrite D. apply slope_grows; [assumption|assumption|exact (start_grows _ _ _ _ L1 CC L2' P P')|lra].
Qed.
Theorem C74_delayed_monotone : forall engine cfg now now' last last' c c' h h' s s' m m' f f' st st', mechanism cfg = "Fryer+12-delayed" ->
  collapsing now c h s -> collapsing now' c' h' s' -> nested c h s -> nested c' h' s' -> total cfg h s == total cfg h' s' -> (14 # 10) <= total cfg h s -> c <= c' ->
  compute_m_rembar engine cfg now last None = Ok (fin m, f, st, "CCSN") -> compute_m_rembar engine cfg now' last' None = Ok (fin m', f', st', "CCSN") -> m <= m'.
Proof.
  intros engine cfg now now' last last' c c' h h' s s' m m' f f' st st' Mc C C' (N0 & N1 & N2) (N0' & N1' & N2') TT T14 CC H H'.
  destruct (C74_delayed _ _ _ _ _ _ _ _ _ _ Mc C H) as (a & b & p & E1 & _ & _ & P & A & _ & X). destruct (C74_delayed _ _ _ _ _ _ _ _ _ _ Mc C' H') as (a' & b' & p' & E1' & _ & _ & P' & A' & _ & X').
  assert (a = m) by (unfold fin in E1; congruence). assert (a' = m') by (unfold fin in E1'; congruence). subst a a'.
  assert (CM : c' <= total cfg h s) by (rewrite TT; unfold total; destruct (conserve_hydrogen_envelope cfg); lra).
  apply (delayed_monotone c c' (total cfg h s) p p' m m' N0 CC CM T14 X X' P A P'). unfold delayed_remnant in *. destruct A' as (A1 & A2 & A3 & A4). repeat split; intros Z; rewrite ?TT; auto.
Qed.
(** The pair-instability limit: a disrupted star has no remnant, a limited one is marked, and nothing else changes. *)
Theorem C74_limited : forall engine cfg now last c h s m f st t P, collapsing now c h s ->
  compute_m_rembar engine cfg now last None = Ok (fin m, f, st, t) -> t <> "WD" ->
  compute_m_rembar engine cfg now last (Some NaN) = Ok (Some NaN, f, st, "PISN")
  /\ (m <= P -> compute_m_rembar engine cfg now last (fin P) = Ok (fin m, f, st, t))
  /\ (P < m -> compute_m_rembar engine cfg now last (fin P) = Ok (fin P, f, st, "PPISN")).
Proof.
  intros engine cfg now last c h s m f st t P C H NW. destruct (rembar_ok _ _ _ _ _ _ _ _ _ _ _ _ C H) as [(X & _)|(t0 & m0 & O & N & R & L)]; [congruence|].
  cbn [limit_by_PISN] in L. assert (m0 = fin m /\ t0 = t) as [-> ->] by (split; congruence). destruct C as (I & Hc & Hh & Hs).
  assert (K : forall P, compute_m_rembar engine cfg now last P = rbind (limit_by_PISN P t (fin m)) (fun mt => Ok (fst mt, f, st, snd mt))).
  { intros P'. unfold compute_m_rembar. rewrite (mem_in _ _ I). cbn [rbind]. rewrite Hc, Hh, Hs. cbn [isna fin].
    change (Some (Fin c)) with (fin c). change (Some (Fin h)) with (fin h). change (Some (Fin s)) with (fin s). rewrite O. cbn [rbind].
    apply String.eqb_neq in N. rewrite N. unfold finite at 1, fin at 1. cbn [rbind].
    replace (finite (if conserve_hydrogen_envelope cfg then fin s else fin h)) with (@Ok Q (total cfg h s)) by (unfold total; destruct (conserve_hydrogen_envelope cfg); reflexivity).
    cbn [rbind]. rewrite R. reflexivity. }
  rewrite !K. unfold fin. cbn [limit_by_PISN rbind fst snd p_gt p_lt]. split; [reflexivity|]. destruct (nlt_spec P m); cbn [rbind fst snd]; split; intros Z; try lra; reflexivity.
Qed.
(** A white dwarf is not affected by it. *)
Theorem C74_white_dwarf : forall engine cfg now last c h s P o, collapsing now c h s ->
  compute_m_rembar engine cfg now last None = Ok o -> kind o = "WD" -> compute_m_rembar engine cfg now last P = Ok o.
Proof.
  intros engine cfg now last c h s P o (I & Hc & Hh & Hs). unfold compute_m_rembar. rewrite (mem_in _ _ I). cbn [rbind]. rewrite Hc, Hh, Hs. cbn [isna fin].
  change (Some (Fin c)) with (fin c). change (Some (Fin h)) with (fin h). change (Some (Fin s)) with (fin s).
  destruct (check_SN_type (ECSN cfg) (fin c) (fin h) (fin s)) as [o'|] eqn:O; cbn [rbind]; [|discriminate]. destruct o' as [[[m f] st] t].
  destruct (String.eqb_spec t "WD"); [intros E _; exact E|]. intros H K. exfalso.
  apply rbind_ok in H as (c' & _ & H). apply rbind_ok in H as (M & _ & H). apply rbind_ok in H as ([[m0 f0] st0] & _ & H). cbv beta iota in H. cbn [limit_by_PISN rbind fst snd] in H.
  assert (o = (m0, f0, st0, t)) as -> by (injection H; intros; subst; reflexivity). unfold kind in K. cbn [snd] in K. congruence.
Qed.

(** ** What does not hold *)
Definition CFG (mech : string) (e : option string) (ce : bool) : config := Config mech NoPISN None None e ce false (5 # 10) (25 # 10) false false true false.
Definition ENGINE0 (r : row) : result (pnum * pnum * option string) := Raise ValueError.
Definition R0 (c h s : Q) : row := Row "stripped_He_Core_C_depleted" (fin s) (fin c) (fin h).
(** A CO core of exactly 11 solar masses stops the delayed engine with an unassigned variable. *)
Theorem C74_eleven_refuted : forall engine e now last h s, ECSN e <> Some "Podsiadlowski+04" -> (ECSN e = Some "Tauris+15" \/ ECSN e = None) ->
  mechanism e = "Fryer+12-delayed" -> collapsing now 11 h s -> compute_m_rembar engine e now last None = Raise UnboundLocalError.
Proof.
  intros engine e now last h s _ EE Mc (I & Hc & Hh & Hs). unfold compute_m_rembar. rewrite (mem_in _ _ I). cbn [rbind]. rewrite Hc, Hh, Hs. cbn [isna fin].
  assert (O : check_SN_type (ECSN e) (fin 11) (fin h) (fin s) = Ok (None, None, None, "CCSN")) by (destruct EE as [-> | ->]; reflexivity).
  rewrite O. cbn [rbind String.eqb Ascii.eqb Bool.eqb]. unfold finite at 1. cbn [rbind].
  replace (finite (if conserve_hydrogen_envelope e then fin s else fin h)) with (@Ok Q (total e h s)) by (unfold total; destruct (conserve_hydrogen_envelope e); reflexivity).
  cbn [rbind]. unfold mechanism_rembar. rewrite Mc. reflexivity.
Qed.
(** The mechanism 'direct_he_core' is accepted by the step, but every star that is no white dwarf is refused. *)
Theorem C74_direct_he_core_refuted : forall engine cfg now last c h s P o, mechanism cfg = "direct_he_core" -> collapsing now c h s ->
  compute_m_rembar engine cfg now last P = Ok o -> kind o = "WD".
Proof.
  intros engine cfg now last c h s P [[[m f] st] t] Mc C H. destruct (rembar_ok _ _ _ _ _ _ _ _ _ _ _ _ C H) as [(X & _)|(t0 & m0 & O & N & R & L)]; [exact X|].
  exfalso. unfold mechanism_rembar in R. rewrite Mc in R. cbn in R. discriminate.
Qed.
(** Without an ECSN prescription the delayed engine gives the lightest cores more than their mass. *)
Theorem C74_fraction_refuted : exists c h s m f, nested c h s /\ collapsing (R0 c h s) c h s
  /\ compute_m_rembar ENGINE0 (CFG "Fryer+12-delayed" None false) (R0 c h s) (R0 c h s) None = Ok (fin m, fin f, None, "CCSN") /\ 1 < f /\ h < m.
Proof.
  exists (138 # 100), (138 # 100), 5, ((12 # 10) + (2 # 10)), ((2 # 10) / ((138 # 100) - (12 # 10))).
  repeat split; try reflexivity; try (vm_compute; congruence). vm_compute. tauto.
Qed.
(** The rapid engine is not monotone: from 7 solar masses on the star explodes again. *)
Theorem C74_rapid_monotone_refuted : exists c c' h s m m' f f', c < c' /\ nested c h s /\ nested c' h s
  /\ compute_m_rembar ENGINE0 (CFG "Fryer+12-rapid" None false) (R0 c h s) (R0 c h s) None = Ok (fin m, fin f, None, "CCSN")
  /\ compute_m_rembar ENGINE0 (CFG "Fryer+12-rapid" None false) (R0 c' h s) (R0 c' h s) None = Ok (fin m', fin f', None, "CCSN") /\ m' < m.
Proof.
  exists (65 # 10), 8, 20, 20. do 4 eexists. split; [reflexivity|]. split; [unfold nested; lra|]. split; [unfold nested; lra|]. split; [vm_compute; reflexivity|]. split; [vm_compute; reflexivity|]. reflexivity.
Qed.
(** The limit does not change the fallback fraction: the remnant of a limited star has full fallback though it lost mass. *)
Theorem C74_limited_fraction_refuted : exists m, compute_m_rembar ENGINE0 (CFG "direct" None false) (R0 40 50 60) (R0 40 50 60) (fin 30) = Ok (fin m, fin 1, None, "PPISN") /\ m < 50.
Proof. exists 30. split; reflexivity. Qed.

(** ** Examples *)
Example rembar_example : exists m f, compute_m_rembar ENGINE0 (CFG "Fryer+12-rapid" (Some "Tauris+15") false) (R0 8 12 20) (R0 8 12 20) None = Ok (fin m, fin f, None, "CCSN")
  /\ nested 8 12 20 /\ collapsing (R0 8 12 20) 8 12 20 /\ m == 12 - 3 * ((25 # 100) * (109 # 10) - (1275 # 1000)).
Proof. do 2 eexists. split; [reflexivity|]. split; [repeat split; lra|]. split; [repeat split; cbn; tauto|]. vm_compute. reflexivity. Qed.
Example delayed_example : exists m f, compute_m_rembar ENGINE0 (CFG "Fryer+12-delayed" (Some "Tauris+15") true) (R0 5 7 20) (R0 5 7 20) None = Ok (fin m, fin f, None, "CCSN")
  /\ m == 20 - 6 * ((133 # 1000) * (187 # 10) - (93 # 1000)).
Proof. do 2 eexists. split; [reflexivity|]. vm_compute. reflexivity. Qed.
Example ecsn_example : exists m, compute_m_rembar ENGINE0 (CFG "Sukhbold+16-engine" (Some "Podsiadlowski+04") true) (R0 1 2 9) (R0 1 2 9) None = Ok (fin m, fin 0, Some "NS", "ECSN") /\ m == 138 # 100.
Proof. eexists. split; [reflexivity|]. vm_compute. reflexivity. Qed.
Example monotone_example : exists m f m' f', compute_m_rembar ENGINE0 (CFG "Fryer+12-delayed" (Some "Tauris+15") true) (R0 5 7 20) (R0 5 7 20) None = Ok (fin m, fin f, None, "CCSN")
  /\ compute_m_rembar ENGINE0 (CFG "Fryer+12-delayed" (Some "Tauris+15") true) (R0 7 9 20) (R0 7 9 20) None = Ok (fin m', fin f', None, "CCSN") /\ m < m'.
Proof. do 4 eexists. split; [reflexivity|]. split; [reflexivity|]. vm_compute. reflexivity. Qed.

Print Assumptions C74_rapid.
Print Assumptions C74_delayed.
Print Assumptions C74_ecsn.
Print Assumptions C74_direct.
Print Assumptions C74_bounds.
Print Assumptions C74_delayed_monotone.
Print Assumptions C74_limited.
Print Assumptions C74_white_dwarf.
Print Assumptions C74_eleven_refuted.
Print Assumptions C74_direct_he_core_refuted.
Print Assumptions C74_fraction_refuted.
Print Assumptions C74_rapid_monotone_refuted.
Print Assumptions C74_limited_fraction_refuted.
