(** C73: the core masses decide the type of a supernova. *)
From Coq Require Import String List Bool ZArith QArith Lqa Lia.
From Verif Require Import PyBase PyNum PyStr MTModel FlowChartModel MergeModel SNModel.
Import ListNotations.
Open Scope string_scope.
Open Scope list_scope.
Open Scope Q_scope.

Lemma qlt_spec a b : reflect (a < b) (qlt a b).
Proof. unfold qlt. destruct (Qle_bool b a) eqn:E; constructor; [apply Qle_bool_iff in E; lra|]. apply Qnot_le_lt. intros H. apply Qle_bool_iff in H. congruence. Qed.
Lemma qle_spec a b : reflect (a <= b) (qle a b).
Proof. unfold qle. destruct (Qle_bool a b) eqn:E; constructor; [apply Qle_bool_iff; exact E|]. intros H. apply Qle_bool_iff in H. congruence. Qed.
Lemma nlt_spec a b : reflect (a < b) (nlt (Fin a) (Fin b)).
Proof. apply qlt_spec. Qed.
Lemma nle_spec a b : reflect (a <= b) (nle (Fin a) (Fin b)).
Proof. apply qle_spec. Qed.
Ltac nums := repeat match goal with
  | |- context [nlt (Fin ?a) (Fin ?b)] => destruct (nlt_spec a b)
  | |- context [nle (Fin ?a) (Fin ?b)] => destruct (nle_spec a b)
  | |- context [qlt ?a ?b] => destruct (qlt_spec a b)
  | |- context [qle ?a ?b] => destruct (qle_spec a b)
  | H : context [nlt (Fin ?a) (Fin ?b)] |- _ => destruct (nlt_spec a b)
  | H : context [nle (Fin ?a) (Fin ?b)] |- _ => destruct (nle_spec a b)
  | H : context [qlt ?a ?b] |- _ => destruct (qlt_spec a b)
  | H : context [qle ?a ?b] |- _ => destruct (qle_spec a b)
  end.

(** ** Specification *)
Definition kind (o : sn_out) : string := snd o.
(** Below [lo] a white dwarf, up to [hi] an electron-capture supernova, above it a core-collapse supernova. *)
Definition typed (x lo hi : Q) (t : string) : Prop :=
  (x < lo /\ t = "WD") \/ (lo <= x <= hi /\ t = "ECSN") \/ (hi < x /\ t = "CCSN").
(** The mass of a white dwarf: its CO core, without one its He core, without one the whole star. *)
Definition wd_of (c h s : Q) (m : Q) : Prop :=
  (0 < c /\ m = c) \/ (c <= 0 /\ 0 < h /\ m = h) \/ (c <= 0 /\ h <= 0 /\ s < 1 # 2 /\ m = s).

Ltac go := cbn [rbind r_and r_or p_lt p_le p_gt p_ge fin ngt nge].
Lemma wd_mass_spec c h s : (exists m, wd_mass (fin c) (fin h) (fin s) = Ok (fin m) /\ wd_of c h s m)
  \/ (wd_mass (fin c) (fin h) (fin s) = Raise ModelError /\ c <= 0 /\ h <= 0 /\ (1 # 2) <= s).
Proof.
  unfold wd_mass, wd_of, fin, p_gt, p_lt, r_or. cbn [rbind]. unfold r_or.
  destruct (nlt_spec 0 c); cbn [rbind]; [left; eauto 10|].
  destruct (nlt_spec 0 h); cbn [rbind]; [left; exists h; split; [reflexivity|]; right; left; repeat split; lra|].
  destruct (nlt_spec s (1 # 2)); cbn [rbind]; [|right; repeat split; lra].
  left. exists s. split; [destruct (nlt (Fin c) (Fin 0)); reflexivity|]. right; right. repeat split; lra.
Qed.
Lemma between_spec c h s x lo hi : lo <= hi ->
  let r := rbind (p_lt (fin x) (fin lo)) (fun wd => if wd then white_dwarf (fin c) (fin h) (fin s)
    else rbind (r_and (p_ge (fin x) (fin lo)) (p_le (fin x) (fin hi))) (fun ec => if ec then no_wd "ECSN"
    else rbind (p_gt (fin x) (fin hi)) (fun cc => if cc then no_wd "CCSN" else Raise ValueError))) in
  (x < lo /\ r = white_dwarf (fin c) (fin h) (fin s)) \/ (lo <= x <= hi /\ r = no_wd "ECSN") \/ (hi < x /\ r = no_wd "CCSN").
Proof.
  intros L. unfold fin, p_lt, p_ge, p_le, p_gt, r_and. cbn [rbind]. unfold p_lt.
  destruct (nlt_spec x lo); cbn [rbind]; [left; split; [lra|reflexivity]|]. destruct (nle_spec lo x); [|lra].
  destruct (nle_spec x hi); cbn [rbind]; [right; left; split; [lra|reflexivity]|]. destruct (nlt_spec hi x); cbn [rbind]; [|lra].
  right; right. split; [lra|reflexivity].
Qed.
Lemma wd_kind c h s o : white_dwarf (fin c) (fin h) (fin s) = Ok o -> exists m, wd_of c h s m /\ o = (fin m, fin 1, Some "WD", "WD").
Proof.
  unfold white_dwarf. destruct (wd_mass_spec c h s) as [(m & -> & W)|(-> & _)]; cbn [rbind]; [|discriminate]. intros E. exists m. split; [exact W|]. congruence.
Qed.

Lemma no_wd_kind t o : no_wd t = Ok o -> o = (None, None, None, t).
Proof. unfold no_wd. intros E. injection E as <-. reflexivity. Qed.
(** ** Theorems *)
Definition TAURIS := Some "Tauris+15".
Definition PODSIADLOWSKI := Some "Podsiadlowski+04".
(** Every combination of three masses: the type, and the error if there is no mass to make a white dwarf of. *)
Theorem C73_co_core : forall c h s,
  (forall o, check_SN_type TAURIS (fin c) (fin h) (fin s) = Ok o -> typed c (137 # 100) (143 # 100) (kind o))
  /\ (forall e, check_SN_type TAURIS (fin c) (fin h) (fin s) = Raise e <-> e = ModelError /\ c <= 0 /\ h <= 0 /\ (1 # 2) <= s).
Proof.
  intros c h s. unfold check_SN_type, TAURIS. cbn [String.eqb Ascii.eqb Bool.eqb]. cbv zeta.
  destruct (between_spec c h s c (137 # 100) (143 # 100) ltac:(lra)) as [[L ->]|[[L ->]|[L ->]]]; unfold typed, kind.
  - split; [intros o E; destruct (wd_kind _ _ _ _ E) as (m & _ & ->); left; split; [lra|reflexivity]|].
    intros e. unfold white_dwarf. destruct (wd_mass_spec c h s) as [(m & -> & W)|(-> & A)]; cbn [rbind].
    + split; [discriminate|]. intros (_ & A1 & A2 & A3). exfalso. destruct W as [[? _]|[(? & ? & _)|(? & ? & ? & _)]]; lra.
    + split; [intros E; split; [congruence|exact A]|]. intros [-> _]. reflexivity.
  - split; [intros o E; rewrite (no_wd_kind _ _ E); right; left; split; [lra|reflexivity]|]. split; [discriminate|]. intros (_ & A1 & A2 & A3). exfalso. lra.
  - split; [intros o E; rewrite (no_wd_kind _ _ E); right; right; split; [lra|reflexivity]|]. split; [discriminate|]. intros (_ & A1 & A2 & A3). exfalso. lra.
Qed.
Theorem C73_he_core : forall c h s,
  (forall o, check_SN_type PODSIADLOWSKI (fin c) (fin h) (fin s) = Ok o -> typed h (14 # 10) (25 # 10) (kind o))
  /\ (forall e, check_SN_type PODSIADLOWSKI (fin c) (fin h) (fin s) = Raise e <-> e = ModelError /\ c <= 0 /\ h <= 0 /\ (1 # 2) <= s).
Proof.
  intros c h s. unfold check_SN_type, PODSIADLOWSKI. cbn [String.eqb Ascii.eqb Bool.eqb]. cbv zeta.
  destruct (between_spec c h s h (14 # 10) (25 # 10) ltac:(lra)) as [[L ->]|[[L ->]|[L ->]]]; unfold typed, kind.
  - split; [intros o E; destruct (wd_kind _ _ _ _ E) as (m & _ & ->); left; split; [lra|reflexivity]|].
    intros e. unfold white_dwarf. destruct (wd_mass_spec c h s) as [(m & -> & W)|(-> & A)]; cbn [rbind].
    + split; [discriminate|]. intros (_ & A1 & A2 & A3). exfalso. destruct W as [[? _]|[(? & ? & _)|(? & ? & ? & _)]]; lra.
    + split; [intros E; split; [congruence|exact A]|]. intros [-> _]. reflexivity.
  - split; [intros o E; rewrite (no_wd_kind _ _ E); right; left; split; [lra|reflexivity]|]. split; [discriminate|]. intros (_ & A1 & A2 & A3). exfalso. lra.
  - split; [intros o E; rewrite (no_wd_kind _ _ E); right; right; split; [lra|reflexivity]|]. split; [discriminate|]. intros (_ & A1 & A2 & A3). exfalso. lra.
Qed.
(** Without an ECSN prescription there are white dwarfs and core-collapse supernovae only. *)
Theorem C73_no_ecsn : forall c h s,
  (forall o, check_SN_type None (fin c) (fin h) (fin s) = Ok o -> (c < 137 # 100 /\ kind o = "WD") \/ ((137 # 100) <= c /\ kind o = "CCSN"))
  /\ (forall e, check_SN_type None (fin c) (fin h) (fin s) = Raise e <-> e = ModelError /\ c <= 0 /\ h <= 0 /\ (1 # 2) <= s).
Proof.
  intros c h s. unfold check_SN_type, fin, p_lt. cbn [rbind]. change (Some (Fin c)) with (fin c). change (Some (Fin h)) with (fin h). change (Some (Fin s)) with (fin s).
  destruct (nlt_spec c (137 # 100)); unfold kind.
  - split; [intros o E; destruct (wd_kind _ _ _ _ E) as (m & _ & ->); left; split; [lra|reflexivity]|].
    intros e. unfold white_dwarf. destruct (wd_mass_spec c h s) as [(m & -> & W)|(-> & A)]; cbn [rbind].
    + split; [discriminate|]. intros (_ & A1 & A2 & A3). exfalso. destruct W as [[? _]|[(? & ? & _)|(? & ? & ? & _)]]; lra.
    + split; [intros E; split; [congruence|exact A]|]. intros [-> _]. reflexivity.
  - split; [intros o E; rewrite (no_wd_kind _ _ E); right; split; [lra|reflexivity]|]. split; [discriminate|]. intros (_ & A1 & A2 & A3). exfalso. lra.
Qed.
(** A white dwarf comes with its mass, full fallback and its state; for any other type the rest is left to the mechanism. *)
Theorem C73_white_dwarf : forall e c h s o, check_SN_type e (fin c) (fin h) (fin s) = Ok o ->
  (kind o = "WD" /\ exists m, wd_of c h s m /\ o = (fin m, fin 1, Some "WD", "WD")) \/ (kind o <> "WD" /\ o = (None, None, None, kind o)).
Proof.
  intros e c h s o. unfold check_SN_type. cbv zeta.
  assert (W : forall o, white_dwarf (fin c) (fin h) (fin s) = Ok o ->
    (kind o = "WD" /\ exists m, wd_of c h s m /\ o = (fin m, fin 1, Some "WD", "WD")) \/ (kind o <> "WD" /\ o = (None, None, None, kind o))).
  { intros o' E. destruct (wd_kind _ _ _ _ E) as (m & A & B). left. split; [rewrite B; reflexivity|]. eauto. }
  assert (N : forall t, t <> "WD" -> no_wd t = Ok o ->
    (kind o = "WD" /\ exists m, wd_of c h s m /\ o = (fin m, fin 1, Some "WD", "WD")) \/ (kind o <> "WD" /\ o = (None, None, None, kind o))).
  { intros t T E. rewrite (no_wd_kind _ _ E). right. split; [exact T|reflexivity]. }
  destruct e as [e|].
  - destruct (String.eqb e "Tauris+15"); [|destruct (String.eqb e "Podsiadlowski+04"); [|discriminate]].
    + destruct (between_spec c h s c (137 # 100) (143 # 100) ltac:(lra)) as [[_ ->]|[[_ ->]|[_ ->]]]; [apply W| |]; apply N; discriminate.
    + destruct (between_spec c h s h (14 # 10) (25 # 10) ltac:(lra)) as [[_ ->]|[[_ ->]|[_ ->]]]; [apply W| |]; apply N; discriminate.
  - unfold fin at 1 2, p_lt. cbn [rbind]. destruct (nlt (Fin c) (Fin (137 # 100))); [apply W|]. apply N. discriminate.
Qed.
(** Other prescriptions are refused. *)
Theorem C73_unknown : forall e c h s, e <> "Tauris+15" -> e <> "Podsiadlowski+04" -> check_SN_type (Some e) c h s = Raise ValueError.
Proof. intros e c h s A B. unfold check_SN_type. apply String.eqb_neq in A, B. rewrite A, B. reflexivity. Qed.
(** A core mass that is not a number: the two prescriptions refuse it, without one the star counts as a core-collapse supernova. *)
Theorem C73_nan : forall x y, check_SN_type TAURIS (Some NaN) x y = Raise ValueError /\ check_SN_type PODSIADLOWSKI x (Some NaN) y = Raise ValueError.
Proof. intros x y. split; reflexivity. Qed.
Theorem C73_nan_refuted : exists o, check_SN_type None (Some NaN) (Some NaN) (Some NaN) = Ok o /\ kind o = "CCSN".
Proof. eexists. split; reflexivity. Qed.
(** Which supernova types fit which compact object. *)
Theorem C73_match : forall t st, check_SN_CO_match t st = true <->
  (st = "WD" -> t = "WD") /\ (st = "NS" -> t = "ECSN" \/ t = "CCSN") /\ (st = "BH" -> t = "CCSN" \/ t = "PPISN")
  /\ (st = "massless_remnant" \/ st = "PISN" -> t = "PISN").
Proof.
  intros t st. unfold check_SN_CO_match. cbv zeta.
  destruct (String.eqb_spec st "PISN") as [-> |NP].
  { cbn [String.eqb Ascii.eqb Bool.eqb andb]. destruct (String.eqb_spec t "PISN") as [-> |N]; cbn [negb].
    - split; [intros _|reflexivity]. repeat split; try discriminate; auto.
    - split; [discriminate|]. intros (_ & _ & _ & H). specialize (H (or_intror eq_refl)). congruence. }
  destruct (String.eqb_spec st "WD") as [-> |NW].
  { cbn [String.eqb Ascii.eqb Bool.eqb andb]. destruct (String.eqb_spec t "WD") as [-> |N]; cbn [negb].
    - split; [intros _|reflexivity]. repeat split; try discriminate; auto. intros [H|H]; discriminate.
    - split; [discriminate|]. intros (H & _). specialize (H eq_refl). congruence. }
  destruct (String.eqb_spec st "NS") as [-> |NN].
  { cbn [String.eqb Ascii.eqb Bool.eqb andb]. destruct (String.eqb_spec t "ECSN") as [-> |N]; [|destruct (String.eqb_spec t "CCSN") as [-> |N']]; cbn [negb andb].
    - split; [intros _|reflexivity]. repeat split; try discriminate; auto. intros [H|H]; discriminate.
    - split; [intros _|reflexivity]. repeat split; try discriminate; auto. intros [H|H]; discriminate.
    - split; [discriminate|]. intros (_ & H & _). destruct (H eq_refl); congruence. }
  destruct (String.eqb_spec st "BH") as [-> |NB].
  { cbn [String.eqb Ascii.eqb Bool.eqb andb]. destruct (String.eqb_spec t "CCSN") as [-> |N]; [|destruct (String.eqb_spec t "PPISN") as [-> |N']]; cbn [negb andb].
    - split; [intros _|reflexivity]. repeat split; try discriminate; auto. intros [H|H]; discriminate.
    - split; [intros _|reflexivity]. repeat split; try discriminate; auto. intros [H|H]; discriminate.
    - split; [discriminate|]. intros (_ & _ & H & _). destruct (H eq_refl); congruence. }
  cbn [andb]. destruct (String.eqb_spec st "massless_remnant") as [-> |NM].
  { cbn [andb]. destruct (String.eqb_spec t "PISN") as [-> |N]; cbn [negb].
    - split; [intros _|reflexivity]. repeat split; try discriminate; auto.
    - split; [discriminate|]. intros (_ & _ & _ & H). specialize (H (or_introl eq_refl)). congruence. }
  split; [intros _|reflexivity]. repeat split; intros H; try congruence. destruct H; congruence.
Qed.

(** ** Examples *)
Example type_example : check_SN_type TAURIS (fin (14 # 10)) (fin 3) (fin 10) = Ok (None, None, None, "ECSN")
  /\ check_SN_type PODSIADLOWSKI (fin (14 # 10)) (fin 3) (fin 10) = Ok (None, None, None, "CCSN")
  /\ check_SN_type None (fin (13 # 10)) (fin 3) (fin 10) = Ok (fin (13 # 10), fin 1, Some "WD", "WD")
  /\ check_SN_type TAURIS (fin 0) (fin (3 # 10)) (fin 1) = Ok (fin (3 # 10), fin 1, Some "WD", "WD")
  /\ check_SN_type TAURIS (fin 0) (fin 0) (fin (2 # 10)) = Ok (fin (2 # 10), fin 1, Some "WD", "WD")
  /\ check_SN_type TAURIS (fin 0) (fin 0) (fin 1) = Raise ModelError.
Proof. repeat split. Qed.
Example match_example : check_SN_CO_match "CCSN" "BH" = true /\ check_SN_CO_match "ECSN" "BH" = false /\ check_SN_CO_match "PISN" "PISN" = true.
Proof. repeat split. Qed.

Print Assumptions C73_co_core.
Print Assumptions C73_he_core.
Print Assumptions C73_no_ecsn.
Print Assumptions C73_white_dwarf.
Print Assumptions C73_unknown.
Print Assumptions C73_nan.
Print Assumptions C73_nan_refuted.
Print Assumptions C73_match.
