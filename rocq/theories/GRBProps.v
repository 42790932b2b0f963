(** The properties of gamma-ray bursts of a population (GRBModel): C189. *)
From Coq Require Import QArith String List Bool Lia Lqa.
From Verif Require Import PyBase PyNum FromRunProofs GRBModel.
Import ListNotations.
Open Scope Q_scope.

(** ** The specification: energies in erg, masses in solar masses *)

(** The rest energy of a mass *)
Definition rest_energy (m : Q) : Q := m * (inject_Z (19892 * 10 ^ 29) * (29979245800 * 29979245800)).
(** Two floats with the same value *)
Definition same (a b : num) : Prop :=
  match a, b with NaN, NaN | PInf, PInf | MInf, MInf => True | Fin x, Fin y => x == y | _, _ => False end.
(** A star without a disk: no energy and no burst *)
Definition no_burst (p : props) : Prop :=
  GRB p = false /\ E_GRB p = Fin 0 /\ E_GRB_iso p = Fin 0 /\ L_GRB_iso p = Fin 0 /\ eta p = NaN /\ f_beaming p = NaN.
(** A star with a disk of radiated mass [m], with efficiency [e] and factor of beaming [f], not zero *)
Definition burst (e m f E_min : Q) (p : props) : Prop :=
  let E := e * rest_energy m in
  same (eta p) (Fin e) /\ same (f_beaming p) (Fin f) /\ same (E_GRB p) (Fin E) /\ same (E_GRB_iso p) (Fin (E / f)) /\ same (L_GRB_iso p) (Fin (E / f / 25)) /\
  (GRB p = true <-> E_min <= E / f).
(** A mass counts as a disk if it is a positive number *)
Definition disk (m : num) (q : Q) : Prop := m = Fin q /\ 0 < q.
Definition no_disk (m : num) : Prop := m = NaN \/ m = MInf \/ exists q, m = Fin q /\ q <= 0.

Lemma no_disk_sel m : no_disk m -> ngt m (Fin 0) = false.
Proof. intros [->|[->|(q & -> & H)]]; [reflexivity..|]. unfold ngt. now apply nlt_fin_false. Qed.
Lemma disk_sel m q : disk m q -> ngt m (Fin 0) = true.
Proof. intros [-> H]. unfold ngt. now apply nlt_fin. Qed.
Lemma ndiv_fin x y : ~ y == 0 -> ndiv (Fin x) (Fin y) = Fin (x / y).
Proof. intros H. cbn. unfold nsign. destruct (y ?= 0) eqn:E; try reflexivity. now apply Qeq_alt in E. Qed.
Lemma energy e m : same (nmul (nmul (Fin e) (Fin m)) (Fin (Msun * clight ^ 2))) (Fin (e * rest_energy m)).
Proof. cbn [nmul same]. unfold rest_energy, Msun, clight. change ((29979245800 # 1) ^ 2) with ((29979245800 # 1) * (29979245800 # 1)). ring. Qed.

(** ** With a factor of beaming given as a number, or from the energy *)

Lemma compute_burst e m f beam E_min : ~ f == 0 ->
  (forall E, E == e * rest_energy m -> exists g, beam (Fin E) = Fin g /\ g == f) ->
  burst e m f E_min (compute (Fin e) (Fin E_min) beam (Fin m)).
Proof.
  intros NZ B. unfold compute. assert (K := energy e m). cbn [nmul] in *. set (E := e * m * (Msun * clight ^ 2)) in *. cbn [same] in K.
  destruct (B E K) as (g & -> & G). assert (NG : ~ g == 0) by (intros Z; apply NZ; now rewrite <- G). rewrite (ndiv_fin E g NG).
  rewrite ndiv_fin by (intros Z; discriminate Z). unfold burst. cbn [eta f_beaming E_GRB E_GRB_iso L_GRB_iso GRB same].
  assert (D : E / g == e * rest_energy m / f) by (rewrite K, G; reflexivity).
  split; [reflexivity|]. split; [exact G|]. split; [exact K|]. split; [exact D|]. split; [now rewrite D|]. unfold nge. rewrite nle_fin. now rewrite D.
Qed.
Lemma selected_map e E_min beam ms i m : nth_error ms i = Some m ->
  nth_error (map (fun m => if ngt m (Fin 0) then compute e E_min beam m else nothing) ms) i = Some (if ngt m (Fin 0) then compute e E_min beam m else nothing).
Proof. intros H. rewrite nth_error_map, H. reflexivity. Qed.

Lemma eff_ok e x : efficiency (AFloat (Fin e)) = Ok x -> x = Fin e /\ 0 <= e <= 1.
Proof.
  unfold efficiency, ngt. destruct (nlt (Fin e) (Fin 0)) eqn:A; [discriminate|]. destruct (nlt (Fin 1) (Fin e)) eqn:B; [discriminate|]. apply nlt_fin_false in A, B.
  cbn [orb]. intros H. split; [congruence|now split].
Qed.
(** The rows of the two stars; [m k] and [p k] are the columns of star 1 and star 2 *)
Theorem C189 : forall m1 m2 e b E_min d1 d2 p1 p2, ~ b == 0 ->
  get_GRB_properties (Some m1) (Some m2) (AFloat (Fin e)) (AFloat (Fin b)) (Fin E_min) d1 d2 = Ok (p1, p2) ->
  0 <= e <= 1 /\ length p1 = length m1 /\ length p2 = length m2 /\
  forall ms ps, (ms, ps) = (m1, p1) \/ (ms, ps) = (m2, p2) ->
  forall i m, nth_error ms i = Some m -> exists p, nth_error ps i = Some p /\
    (no_disk m -> no_burst p) /\ (forall q, disk m q -> burst e q b E_min p /\ (0 < b <= 1 -> same (E_GRB p) (Fin (e * rest_energy q)) /\ e * rest_energy q <= e * rest_energy q / b)).
Proof.
  intros m1 m2 e b E_min d1 d2 p1 p2 NZ H. unfold get_GRB_properties in H. apply bind_ok in H as (x & EF & H). apply eff_ok in EF as (-> & L0 & L1). cbn [star rbind] in H.
  assert (Q1 : p1 = map (fun m => if ngt m (Fin 0) then compute (Fin e) (Fin E_min) (fun _ => Fin b) m else nothing) m1) by congruence.
  assert (Q2 : p2 = map (fun m => if ngt m (Fin 0) then compute (Fin e) (Fin E_min) (fun _ => Fin b) m else nothing) m2) by congruence.
  split; [easy|]. split; [subst p1; apply map_length|]. split; [subst p2; apply map_length|].
  assert (W : forall ms, forall i m, nth_error ms i = Some m -> exists p, nth_error (map (fun m => if ngt m (Fin 0) then compute (Fin e) (Fin E_min) (fun _ => Fin b) m else nothing) ms) i = Some p /\
    (no_disk m -> no_burst p) /\ (forall q, disk m q -> burst e q b E_min p /\ (0 < b <= 1 -> same (E_GRB p) (Fin (e * rest_energy q)) /\ e * rest_energy q <= e * rest_energy q / b))).
  { intros ms i m N. eexists. split; [exact (selected_map _ _ _ _ _ _ N)|]. split.
    - intros D. rewrite (no_disk_sel m D). now repeat split.
    - intros q D. rewrite (disk_sel m q D). destruct D as [-> PQ]. assert (BU : burst e q b E_min (compute (Fin e) (Fin E_min) (fun _ => Fin b) (Fin q))).
      { apply compute_burst; [exact NZ|]. intros E _. exists b. split; reflexivity. }
      split; [exact BU|]. intros [B0 B1]. split; [apply BU|]. apply Qle_shift_div_l; [exact B0|].
      assert (0 <= rest_energy q) by (unfold rest_energy; apply Qmult_le_0_compat; [lra|discriminate]).
      assert (0 <= e * rest_energy q) by (apply Qmult_le_0_compat; assumption). nra. }
  intros ms ps [X|X] i m N; [assert (ms = m1 /\ ps = p1) as [-> ->] by (split; congruence); subst p1|assert (ms = m2 /\ ps = p2) as [-> ->] by (split; congruence); subst p2]; now apply W.
Qed.

(** With "Pescalli+15" the efficiency enters twice: the fraction of the sphere is 1.75e48 / (e E) where the energy E already has the factor e.
    It is more than the whole sphere for small energies *)
Theorem C189_pescalli : forall m1 m2 e E_min d1 d2 p1 p2 i q, 0 < e ->
  get_GRB_properties (Some m1) (Some m2) (AFloat (Fin e)) (AText "Pescalli+15") (Fin E_min) d1 d2 = Ok (p1, p2) ->
  nth_error m1 i = Some (Fin q) -> 0 < q ->
  let E := e * rest_energy q in let f := inject_Z (175 * 10 ^ 46) / (e * E) in
  exists p, nth_error p1 i = Some p /\ burst e q f E_min p /\ (1 < f <-> e * E < inject_Z (175 * 10 ^ 46)).
Proof.
  intros m1 m2 e E_min d1 d2 p1 p2 i q PE H N PQ E. assert (HE : E == e * rest_energy q) by reflexivity. intros f. unfold get_GRB_properties in H. apply bind_ok in H as (x & EF & H). apply eff_ok in EF as (-> & _). unfold star in H.
  cbn [rbind String.eqb Ascii.eqb Bool.eqb] in H.
  assert (Q1 : p1 = map (fun m => if ngt m (Fin 0) then compute (Fin e) (Fin E_min) (fun E => pescalli E (Fin e)) m else nothing) m1) by congruence.
  assert (PR : 0 < rest_energy q) by (unfold rest_energy; apply Qmult_lt_0_compat; [exact PQ|reflexivity]).
  assert (PEE : 0 < E) by exact (Qmult_lt_0_compat _ _ PE PR). clearbody E. assert (PX : 0 < e * E) by exact (Qmult_lt_0_compat _ _ PE PEE).
  subst p1. eexists. split; [exact (selected_map _ _ _ _ _ _ N)|]. rewrite (disk_sel (Fin q) q (conj eq_refl PQ)). split.
  - apply compute_burst.
    + intros Z. assert (K : f * (e * E) == inject_Z (175 * 10 ^ 46)) by (unfold f; field; lra). rewrite Z in K. discriminate K.
    + intros E' KE. rewrite <- HE in KE. assert (0 < E') by (rewrite KE; exact PEE). assert (0 < e * E') by exact (Qmult_lt_0_compat _ _ PE H0).
      unfold pescalli, ngt. assert (nlt (Fin 0) (Fin E') = true) as -> by now apply nlt_fin. cbn [nmul].
      rewrite (ndiv_fin (e * E') 25) by (intros Z; discriminate Z). rewrite ndiv_fin.
      * eexists. split; [reflexivity|]. unfold f. rewrite <- KE. change (inject_Z (175 * 10 ^ 46)) with (inject_Z (7 * 10 ^ 46) * 25). field. lra.
      * intros Z. assert (K : e * E' / 25 * 25 == e * E') by (field). rewrite Z in K. lra.
  - unfold f. split; intros K.
    + apply Qnot_le_lt. intros L. assert (X : inject_Z (175 * 10 ^ 46) / (e * E) <= 1) by (apply Qle_shift_div_r; [exact PX|lra]). lra.
    + apply Qlt_shift_div_l; [exact PX|lra].
Qed.

(** ** Goldstein+15: the k-th star with a disk has the k-th draw *)

Definition go (e E_min : num) := fix go (ds : list num) (l : list num) : list props := match l with
  | [] => []
  | m :: r => if ngt m (Fin 0) then match ds with d :: ds => compute e E_min (fun _ => d) m :: go ds r | [] => nothing :: go [] r end else nothing :: go ds r
  end.
Definition disks (l : list num) : nat := length (filter (fun m => ngt m (Fin 0)) l).
Lemma go_nth e E_min : forall ms ds i m, (disks ms <= length ds)%nat -> nth_error ms i = Some m -> ngt m (Fin 0) = true ->
  exists d, nth_error ds (disks (firstn i ms)) = Some d /\ nth_error (go e E_min ds ms) i = Some (compute e E_min (fun _ => d) m).
Proof.
  induction ms as [|x ms IH]; intros ds [|i] m L N S; cbn in N; try discriminate.
  - assert (x = m) as -> by congruence. unfold disks in L. cbn [filter] in L. cbn [go]. rewrite S in *. destruct ds as [|d ds]; [cbn [length] in L; lia|]. exists d. now split.
  - unfold disks in *. cbn [go filter firstn] in *. destruct (ngt x (Fin 0)) eqn:X.
    + destruct ds as [|d ds]; [cbn [length] in L; lia|]. destruct (IH ds i m) as (d' & A & B); [cbn [length] in L; lia|assumption..|]. exists d'. now split.
    + destruct (IH ds i m) as (d' & A & B); [assumption..|]. exists d'. now split.
Qed.
Theorem C189_goldstein : forall m1 m2 e E_min d1 d2 p1 p2 i q, (disks m1 <= length d1)%nat ->
  get_GRB_properties (Some m1) (Some m2) (AFloat (Fin e)) (AText "Goldstein+15") (Fin E_min) d1 d2 = Ok (p1, p2) ->
  nth_error m1 i = Some (Fin q) -> 0 < q ->
  exists d p, nth_error d1 (disks (firstn i m1)) = Some d /\ nth_error p1 i = Some p /\ forall f, d = Fin f -> ~ f == 0 -> burst e q f E_min p.
Proof.
  intros m1 m2 e E_min d1 d2 p1 p2 i q L H N PQ. unfold get_GRB_properties in H. apply bind_ok in H as (x & EF & H). apply eff_ok in EF as (-> & _). unfold star in H.
  cbn [rbind String.eqb Ascii.eqb Bool.eqb] in H.
  assert (Q1 : p1 = go (Fin e) (Fin E_min) d1 m1) by (unfold go; congruence).
  destruct (go_nth (Fin e) (Fin E_min) m1 d1 i (Fin q) L N (disk_sel (Fin q) q (conj eq_refl PQ))) as (d & D & G).
  exists d. eexists. split; [exact D|]. subst p1. split; [exact G|]. intros f -> NZ. apply compute_burst; [exact NZ|]. intros E _. exists f. now split.
Qed.

(** ** What is refused *)
Theorem C189_accepts : forall m1 m2 eff beaming E_min d1 d2,
  (exists r, get_GRB_properties m1 m2 eff beaming E_min d1 d2 = Ok r) <->
  m1 <> None /\ m2 <> None /\ (eff = AFloat NaN \/ exists e, eff = AFloat (Fin e) /\ 0 <= e <= 1) /\
  ((exists b, beaming = AFloat b) \/ beaming = AText "Goldstein+15" \/ beaming = AText "Pescalli+15").
Proof.
  intros m1 m2 eff beaming E_min d1 d2. split.
  - intros ((p1 & p2) & H). unfold get_GRB_properties in H. destruct m1 as [m1|], m2 as [m2|]; try discriminate. split; [discriminate|]. split; [discriminate|].
    apply bind_ok in H as (e & EE & H). apply bind_ok in H as (q1 & S & _). split.
    + destruct eff as [x| |]; try discriminate. destruct x as [| | |x]; [now left|discriminate EE|discriminate EE|]. right. exists x. split; [reflexivity|]. now apply eff_ok in EE.
    + destruct beaming as [b|s|]; [left; now exists b|right|discriminate]. cbn in S. destruct (String.eqb_spec s "Goldstein+15"); [left; congruence|].
      destruct (String.eqb_spec s "Pescalli+15"); [right; congruence|discriminate].
  - intros (A & B & EF & BE). destruct m1 as [m1|]; [|now destruct A]. destruct m2 as [m2|]; [|now destruct B]. unfold get_GRB_properties.
    assert (exists e, efficiency eff = Ok e) as (e & ->).
    { destruct EF as [->|(e & -> & L0 & L1)]; [now exists NaN|]. exists (Fin e). unfold efficiency, ngt. assert (nlt (Fin e) (Fin 0) = false) as -> by now apply nlt_fin_false.
      assert (nlt (Fin 1) (Fin e) = false) as -> by now apply nlt_fin_false. reflexivity. }
    cbn [rbind]. destruct BE as [(b & ->)|[->| ->]]; cbn; eexists; reflexivity.
Qed.
(** An efficiency of NaN is not refused; then no star has a burst *)
Theorem C189_nan : forall m1 m2 b E_min d1 d2 p1 p2,
  get_GRB_properties (Some m1) (Some m2) (AFloat NaN) (AFloat b) E_min d1 d2 = Ok (p1, p2) -> forall p, In p p1 \/ In p p2 -> GRB p = false.
Proof.
  intros m1 m2 b E_min d1 d2 p1 p2 H. unfold get_GRB_properties in H. change (efficiency (AFloat NaN)) with (Ok NaN : result num) in H. cbn [rbind star] in H. intros p I.
  assert (W : forall ms, In p (map (fun m => if ngt m (Fin 0) then compute NaN E_min (fun _ => b) m else nothing) ms) -> GRB p = false).
  { intros ms K. apply in_map_iff in K as (m & <- & _). destruct (ngt m (Fin 0)); [|reflexivity]. cbn. unfold nge. now destruct E_min. }
  destruct I as [I|I]; [apply (W m1)|apply (W m2)]; congruence.
Qed.

(** ** Non-vacuity and findings *)
Example C189_case : exists p1 p2, get_GRB_properties (Some [Fin (1 # 2); NaN; Fin 0]) (Some [Fin 1; Fin 2; Fin 0]) (AFloat (Fin (1 # 100))) (AFloat (Fin (1 # 10))) (Fin (inject_Z (10 ^ 52))) [] [] = Ok (p1, p2) /\
  map GRB p1 = [true; false; false] /\ map GRB p2 = [true; true; false].
Proof. eexists _, _. split; [reflexivity|]. split; reflexivity. Qed.
Example C189_pescalli_case : exists p1 p2, get_GRB_properties (Some [Fin (1 # 1000000); Fin 1]) (Some []) (AFloat (Fin (1 # 100))) (AText "Pescalli+15") (Fin 0) [] [] = Ok (p1, p2) /\
  map (fun p => nlt (Fin 1) (f_beaming p)) p1 = [true; false].
Proof. eexists _, _. split; [reflexivity|]. reflexivity. Qed.
Example C189_goldstein_case : exists p1 p2, get_GRB_properties (Some [Fin 1; NaN; Fin 2]) (Some []) (AFloat (Fin 1)) (AText "Goldstein+15") (Fin 0) [Fin (1 # 50); Fin (1 # 20)] [] = Ok (p1, p2) /\
  map f_beaming p1 = [Fin (1 # 50); NaN; Fin (1 # 20)].
Proof. eexists _, _. split; [reflexivity|]. reflexivity. Qed.
(** "A star with a burst has radiated energy" is false: with the default threshold any disk counts, even when nothing is radiated *)
Theorem C189_energy_refuted : ~ (forall m1 m2 eff beaming E_min d1 d2 p1 p2 p, get_GRB_properties m1 m2 eff beaming E_min d1 d2 = Ok (p1, p2) -> In p p1 -> GRB p = true -> nlt (Fin 0) (E_GRB p) = true).
Proof.
  intros H. specialize (H (Some [Fin 1]) (Some [NaN]) (AFloat (Fin 0)) (AFloat (Fin 1)) (Fin 0) [] [] _ _ (compute (Fin 0) (Fin 0) (fun _ => Fin 1) (Fin 1)) eq_refl).
  assert (K := H (or_introl eq_refl) eq_refl). discriminate K.
Qed.
(** "The isotropic energy is at least the energy" is false: factors of beaming above 1 are not refused, nor negative ones *)
Theorem C189_isotropic_refuted : ~ (forall m1 m2 eff beaming E_min d1 d2 p1 p2 p, get_GRB_properties m1 m2 eff beaming E_min d1 d2 = Ok (p1, p2) -> In p p1 -> nle (E_GRB p) (E_GRB_iso p) = true).
Proof.
  intros H. specialize (H (Some [Fin (1 # 1000000)]) (Some [NaN]) (AFloat (Fin (1 # 100))) (AText "Pescalli+15") (Fin 0) [] [] _ _ (compute (Fin (1 # 100)) (Fin 0) (fun E => pescalli E (Fin (1 # 100))) (Fin (1 # 1000000))) eq_refl).
  assert (K := H (or_introl eq_refl)). vm_compute in K. discriminate K.
Qed.

Print Assumptions C189.
Print Assumptions C189_pescalli.
Print Assumptions C189_goldstein.
Print Assumptions C189_accepts.
Print Assumptions C189_nan.
Print Assumptions C189_energy_refuted.
Print Assumptions C189_isotropic_refuted.
