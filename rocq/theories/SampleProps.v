(** C26-C29: initial conditions of binaries. *)
From Coq Require Import String List ZArith QArith Bool Lia Lqa.
From Coq Require Import Floats.SpecFloat.
From Verif Require Import PyBase PyNum PyList SamplerModel SamplerSpec SamplerProofs ThinProofs SampleModel SampleSpec
  SampleProofs DrawProofs GenProofs SamplerProps.
Import ListNotations.
Open Scope string_scope.
Open Scope nat_scope.
Open Scope list_scope.

(** * C28: column names *)
Theorem infer_key_exact : forall casefold available allowed,
  (resolves casefold available allowed (infer_key casefold available allowed)
   \/ (unresolved casefold available allowed /\ infer_key casefold available allowed = ""))
  /\ (forall key, resolves casefold available allowed key -> infer_key casefold available allowed = key
                  \/ unresolved casefold available allowed)
  /\ (forall k1 k2, resolves casefold available allowed k1 -> resolves casefold available allowed k2 -> k1 = k2).
Proof.
  intros. split; [apply infer_key_spec|]. split.
  - intros key R. destruct (infer_key_spec casefold available allowed) as [R'|[U _]]; [left | right; exact U].
    apply (resolves_fun _ _ _ _ _ R' R).
  - apply resolves_fun.
Qed.
Print Assumptions infer_key_exact.
(** A name that resolves is never reported as missing. *)
Theorem infer_key_found : forall casefold available allowed key,
  resolves casefold available allowed key -> infer_key casefold available allowed = key.
Proof.
  intros casefold available allowed key R.
  destruct (infer_key_spec casefold available allowed) as [R'|[U _]]; [apply (resolves_fun _ _ _ _ _ R' R)|].
  exfalso. destruct R as (pre & k & post & a & b & EA & EV & C & _).
  apply (U k key); [rewrite EA | rewrite EV | exact C]; apply in_or_app; right; left; reflexivity.
Qed.
Print Assumptions infer_key_found.
Example infer_key_case : infer_key casefold_ascii ["M_1"; "Primary_Mass"; "primary_mass"] PRIMARY_MASS_NAMES = "Primary_Mass"
  /\ infer_key casefold_ascii ["M_2"; "p"] PRIMARY_MASS_NAMES = "".
Proof. split; reflexivity. Qed.

(** The names looked for: the documented spellings of each quantity, in order of preference;
    no name serves two quantities, so a column of the file never fills two of them. *)
Definition kick_spellings (star comp long short : string) : list string :=
  [("s" ++ star ++ "_natal_kick_" ++ long)%string; ("s" ++ star ++ "_natal_kick_array_" ++ comp)%string;
   (short ++ "_" ++ star)%string; (short ++ star)%string].
Theorem alias_lists :
  let spelled := [["s1_mass"; "primary_mass"; "mass_1"; "m_1"; "m1"];
      ["s2_mass"; "secondary_mass"; "mass_2"; "m_2"; "m2"];
      ["orbital_period"; "period"; "p_orb"; "porb"; "p"];
      ["orbital_separation"; "separation"; "semi-major_axis"; "semi_major_axis"; "a"];
      ["eccentricity"; "ecc"; "e"]]
    ++ flat_map (fun star => [kick_spellings star "0" "velocity" "w"; kick_spellings star "1" "azimuthal_angle" "phi";
                              kick_spellings star "2" "polar_angle" "theta"; kick_spellings star "3" "mean_anomaly" "mean_anomaly"])
                ["1"; "2"] in
  [PRIMARY_MASS_NAMES; SECONDARY_MASS_NAMES; PERIOD_NAMES; SEPARATION_NAMES; ECCENTRICITY_NAMES;
   PRIMARY_KICK_VELOCITY_NAMES; PRIMARY_KICK_AZIMUTHAL_ANGLE_NAMES; PRIMARY_KICK_POLAR_ANGLE_NAMES; PRIMARY_KICK_MEAN_ANOMALY_NAMES;
   SECONDARY_KICK_VELOCITY_NAMES; SECONDARY_KICK_AZIMUTHAL_ANGLE_NAMES; SECONDARY_KICK_POLAR_ANGLE_NAMES; SECONDARY_KICK_MEAN_ANOMALY_NAMES]
  = spelled /\ NoDup (map casefold_ascii (concat spelled)).
Proof.
  cbv zeta. split; [reflexivity|].
  match goal with |- NoDup ?l => let l' := eval vm_compute in l in change (NoDup l') end.
  repeat (constructor; [intro I; cbn [In] in I; repeat (destruct I as [I|I]; [discriminate I|]); exact I|]). constructor.
Qed.
Print Assumptions alias_lists.

(** * C27: initial conditions from a file *)
Theorem file_samples_cyclic : forall G casefold g_ecc g_m1 g_m2 g_sep g_per fuel scheme k d (g : G) e g1 m1 g2 m2 g3 o g4 n,
  k_path k = File d -> table_ok d -> 1 <= n_rows d ->
  sourced casefold d ECCENTRICITY_NAMES g_ecc g e g1 ->
  sourced casefold d PRIMARY_MASS_NAMES g_m1 g1 m1 g2 ->
  sourced casefold d SECONDARY_MASS_NAMES (g_m2 m1) g2 m2 g3 ->
  (scheme = Some "separation" /\ sourced casefold d SEPARATION_NAMES g_sep g3 o g4 \/
   scheme = Some "period" /\ sourced casefold d PERIOD_NAMES (g_per m1) g3 o g4) ->
  k_number k = Some n -> 1 <= n ->
  let i := match k_index k with Some i => i | None => 0 end in
  i + n <= fuel ->
  exists q, get_samples_from_file G casefold g_ecc g_m1 g_m2 g_sep g_per fuel scheme k g = Some (Ok (q, g4)) /\
    cyclic o i n (q_orbit q) /\ cyclic e i n (q_ecc q) /\ cyclic m1 i n (q_m1 q) /\ cyclic m2 i n (q_m2 q).
Proof. exact samples_cyclic. Qed.
Print Assumptions file_samples_cyclic.

Theorem file_kicks_cyclic : forall casefold fuel k d n, k_path k = File d -> table_ok d -> 1 <= n_rows d ->
  k_number k = Some n ->
  let i := match k_index k with Some i => i | None => 0 end in
  i + n <= fuel ->
  exists a b, get_kick_samples_from_file casefold fuel k = Some (Ok (a, b)) /\
    length a = n /\ length b = n /\
    forall j, j < n -> exists ra rb, nth_error a j = Some ra /\ nth_error b j = Some rb /\
      kick_at casefold d ((i + j) mod n_rows d) 1 ra /\ kick_at casefold d ((i + j) mod n_rows d) 2 rb.
Proof. exact kicks_cyclic. Qed.
Print Assumptions file_kicks_cyclic.

(** The binary drawn with index [i] is row [i mod m] of the file, in every quantity. *)
Theorem file_binary_is_row : forall G casefold g_ecc g_m1 g_m2 g_sep g_per formation_times period_of separation_of fuel
    k d i (g : G) ng e g1 m1 g2 m2 g3 o g4 t g5,
  k_path k = File d -> table_ok d -> 1 <= n_rows d -> i + 1 <= fuel ->
  sourced casefold d ECCENTRICITY_NAMES g_ecc g e g1 ->
  sourced casefold d PRIMARY_MASS_NAMES g_m1 g1 m1 g2 ->
  sourced casefold d SECONDARY_MASS_NAMES (g_m2 m1) g2 m2 g3 ->
  (k_scheme k = Some "separation" /\ sourced casefold d SEPARATION_NAMES g_sep g3 o g4 \/
   k_scheme k = Some "period" /\ sourced casefold d PERIOD_NAMES (g_per m1) g3 o g4) ->
  formation_times 1 g4 = Some (Ok ([t], g5)) ->
  exists b, draw_initial_binary G (get_samples_from_file G casefold g_ecc g_m1 g_m2 g_sep g_per fuel)
              (get_kick_samples_from_file casefold fuel) formation_times period_of separation_of
              (set_index k i) g ng = Some (Ok (b, g5, S ng)) /\
    let r := i mod n_rows d in
    b_index b = i /\ b_time b = t /\ nth_error m1 r = Some (b_m1 b) /\
    kick_at casefold d r 1 (b_kick1 b) /\
    (nth_error m2 r = Some NaN -> b_state b = "initially_single_star" /\ b_star2 b = None /\
       b_sep b = NaN /\ b_period b = NaN /\ b_ecc b = NaN) /\
    (nth_error m2 r <> Some NaN -> b_state b = "detached" /\
       nth_error e r = Some (b_ecc b) /\
       (exists x kr, b_star2 b = Some (x, kr) /\ nth_error m2 r = Some x /\ kick_at casefold d r 2 kr /\
        (k_scheme k = Some "separation" ->
           nth_error o r = Some (b_sep b) /\ b_period b = period_of (b_sep b) (b_m1 b) x) /\
        (k_scheme k = Some "period" ->
           nth_error o r = Some (b_period b) /\ b_sep b = separation_of (b_period b) (b_m1 b) x))).
Proof. exact file_binary. Qed.
Print Assumptions file_binary_is_row.

(** A file with rows but headers only (no rows) is never finished, for any amount of fuel. *)
Theorem file_empty_stuck : forall G casefold g_ecc g_m1 g_m2 g_sep g_per fuel scheme k d (g : G) e g1 m1 g2 m2 g3 o g4 n,
  k_path k = File d -> table_ok d -> n_rows d = 0 ->
  sourced casefold d ECCENTRICITY_NAMES g_ecc g e g1 ->
  sourced casefold d PRIMARY_MASS_NAMES g_m1 g1 m1 g2 ->
  sourced casefold d SECONDARY_MASS_NAMES (g_m2 m1) g2 m2 g3 ->
  (scheme = Some "separation" /\ sourced casefold d SEPARATION_NAMES g_sep g3 o g4 \/
   scheme = Some "period" /\ sourced casefold d PERIOD_NAMES (g_per m1) g3 o g4) ->
  k_number k = Some n -> 1 <= n ->
  get_samples_from_file G casefold g_ecc g_m1 g_m2 g_sep g_per fuel scheme k g = None.
Proof. exact samples_stuck. Qed.
Print Assumptions file_empty_stuck.
Theorem file_empty_kicks_stuck : forall casefold fuel k d n, k_path k = File d -> table_ok d -> n_rows d = 0 ->
  k_number k = Some n -> 1 <= n -> get_kick_samples_from_file casefold fuel k = None.
Proof. exact kicks_stuck. Qed.
Print Assumptions file_empty_kicks_stuck.

(** A file with aliased columns and without an eccentricity. *)
Definition ex_file : csv := Csv 3 [("M1", [Fin 10; Fin 20; Fin 30]); ("w2", [Fin 7; Fin 8; Fin 9]);
  ("secondary_mass", [Fin 5; Fin 6; NaN]); ("P_orb", [Fin 1; Fin 2; Fin 3]);
  ("phi_1", [Fin 40; Fin 41; Fin 42]); ("s1_natal_kick_array_2", [Fin 50; Fin 51; Fin 52]);
  ("Mean_Anomaly_2", [Fin 60; Fin 61; Fin 62])].
Definition fixed (x : num) (n : nat) (g : N) : run (list num * N) := Some (Ok (repeat x n, g)).
Notation file_sampler := (get_samples_from_file N casefold_ascii (fixed (Fin (1#4))) (fixed (Fin 0))
                            (fun _ => fixed (Fin 0)) (fixed (Fin 0)) (fun _ => fixed (Fin 0)) 40).
Notation file_draw := (draw_initial_binary N file_sampler (get_kick_samples_from_file casefold_ascii 40)
                         (fixed (Fin 13)) (fun _ _ _ => Fin 100) (fun _ _ _ => Fin 200)).
Definition kw_file := Kw None None (Some "period") (File ex_file).
Example file_case : table_ok ex_file /\ 1 <= n_rows ex_file /\
  file_draw (set_index kw_file 7) 0%N 0 =
    Some (Ok (Binary 7 (Fin 13) "detached" "ZAMS" (Fin 200) (Fin 2) (Fin (1#4)) (Fin 20)
                (None, Some (Fin 41), Some (Fin 51), None) (Some (Fin 6, (Some (Fin 8), None, None, Some (Fin 61)))), 0%N, 1))
  /\ file_draw (set_index kw_file 5) 0%N 0 =
    Some (Ok (Binary 5 (Fin 13) "initially_single_star" "ZAMS" NaN NaN NaN (Fin 30)
                (None, Some (Fin 42), Some (Fin 52), None) None, 0%N, 1)).
Proof.
  split; [|split; [cbn; lia | split; reflexivity]].
  split; [|split].
  - repeat constructor; cbn; intuition discriminate.
  - cbn. intuition discriminate.
  - intros key l I. cbn in I. repeat (destruct I as [I|I]; [inversion I; reflexivity|]). destruct I.
Qed.

(** Without an explicit index every binary of a sequence is row 0 of the file. *)
Theorem file_sequence_refuted : exists bs o,
  draw_many N file_sampler (get_kick_samples_from_file casefold_ascii 40) (fixed (Fin 13))
    (fun _ _ _ => Fin 100) (fun _ _ _ => Fin 200) 3 kw_file (Gen N 0%N 0%N 0) = Some (Ok (bs, o)) /\
  map b_m1 bs = [Fin 10; Fin 10; Fin 10] /\ map b_index bs = [0; 1; 2].
Proof. eexists _, _. split; [vm_compute; reflexivity|]. split; reflexivity. Qed.

(** With number_of_binaries = 0 all rows of the samples are returned but no kicks. *)
Theorem file_zero_binaries_refuted : exists q g' a b,
  file_sampler (Some "period") (set_number kw_file 0) 0%N = Some (Ok (q, g')) /\ length (q_m1 q) = 3 /\
  get_kick_samples_from_file casefold_ascii 40 (set_number kw_file 0) = Some (Ok (a, b)) /\ length a = 0.
Proof. eexists _, _, _, _. split; [vm_compute; reflexivity|]. split; [reflexivity|]. split; vm_compute; reflexivity. Qed.

(** * C29: secondary masses and single stars *)
(** With any accurate rounding the limits hold up to that accuracy, and the secondary is
    never heavier than the primary. *)
Theorem secondary_bounds : forall G (next : G -> Q * G) scale fdiv fmul eps rnd,
  unit_stream next -> keeps_limits scale -> (0 <= eps /\ eps < 1)%Q -> rounds eps rnd ->
  (forall a b, fdiv a b == rnd (a / b))%Q -> (forall a b, fmul a b == rnd (a * b))%Q ->
  forall smin smax m1 g l g', (0 <= smin)%Q -> (0 <= smax)%Q ->
  Forall (fun m => 0 < m /\ rnd m == m)%Q m1 ->
  generate_secondary_masses G next scale fdiv fmul "flat_mass_ratio" smin smax m1 g = Ok (Some l, g') ->
  Forall2 (fun m m2 => (1 - eps) * (1 - eps) * smin <= m2 /\ m2 <= m /\ m2 <= (1 + eps) * (1 + eps) * smax)%Q m1 l.
Proof.
  intros G next scale fdiv fmul eps rnd U K E R DIV MUL smin smax m1 g l g' A B F H.
  apply secondary_inv in H. destruct H as (_ & _ & [(_ & l' & EL & H) | (X & _)]); [|discriminate].
  assert (l = l') as -> by congruence.
  eapply flat_bounds; eassumption.
Qed.
Print Assumptions secondary_bounds.

(** In exact arithmetic. *)
Theorem secondary_bounds_exact : forall G (next : G -> Q * G) scale fdiv fmul,
  unit_stream next -> keeps_limits scale ->
  (forall a b, fdiv a b == a / b)%Q -> (forall a b, fmul a b == a * b)%Q ->
  forall smin smax m1 g l g', (0 <= smin)%Q -> (0 <= smax)%Q -> Forall (fun m => 0 < m)%Q m1 ->
  generate_secondary_masses G next scale fdiv fmul "flat_mass_ratio" smin smax m1 g = Ok (Some l, g') ->
  Forall2 (fun m m2 => smin <= m2 /\ m2 <= m /\ m2 <= smax)%Q m1 l.
Proof.
  intros G next scale fdiv fmul U K DIV MUL smin smax m1 g l g' A B F H.
  assert (Forall2 (fun m m2 => (1 - 0) * (1 - 0) * smin <= m2 /\ m2 <= m /\ m2 <= (1 + 0) * (1 + 0) * smax)%Q m1 l) as X.
  { eapply (secondary_bounds G next scale fdiv fmul 0 (fun x => x) U K); try eassumption.
    - split; lra.
    - split; [intros; assumption | intros; split; lra].
    - eapply Forall_impl; [|exact F]. intros m P. split; [exact P | reflexivity]. }
  clear -X. induction X as [|m m2 m1 l (P & Q1 & R) X IH]; constructor; [|exact IH].
  split; [|split]; lra.
Qed.
Print Assumptions secondary_bounds_exact.

(** When it succeeds: every primary must be strictly above the smallest secondary mass. *)
Theorem secondary_succeeds : forall G (next : G -> Q * G) scale fdiv fmul smin smax,
  (0 < smin)%Q -> (smin < smax)%Q -> (forall a b, fdiv a b == a / b)%Q ->
  forall m1 g, m1 <> [] -> Forall (fun m => 0 < m)%Q m1 ->
  ((exists r, generate_secondary_masses G next scale fdiv fmul "flat_mass_ratio" smin smax m1 g = Ok r) <->
   Forall (fun m => smin < m)%Q m1) /\
  (forall e, generate_secondary_masses G next scale fdiv fmul "flat_mass_ratio" smin smax m1 g = Raise e -> e = ValueError).
Proof.
  intros G next scale fdiv fmul smin smax A B DIV m1 g NE F.
  destruct (flat_succeeds G next scale fdiv fmul smin smax A B DIV m1 g F) as [S1 S2].
  unfold generate_secondary_masses. change (negb (inb _ _ _)) with false. cbv iota.
  destruct m1 as [|m m1]; [congruence|].
  destruct (Qle_bool smin (qmin_list m m1)) eqn:EL; cbn [negb].
  - change ("flat_mass_ratio" =? "flat_mass_ratio")%string with true. cbv iota.
    destruct (flat_secondaries G next scale fdiv fmul smin smax (m :: m1) g) as [[l g']|e]; cbn [rbind].
    + split; [|discriminate]. split; [|intros _; eexists; reflexivity]. intros _. apply S1. eexists. reflexivity.
    + split; [|intros e' H; apply S2; congruence]. split; [intros (r & H); discriminate|].
      intro H. apply S1 in H. destruct H; discriminate.
  - split; [|intros e H; congruence]. split; [intros (r & H); discriminate|].
    intro H. exfalso. rewrite Forall_forall in H. specialize (H _ (qmin_in m1 m)).
    assert (smin <= qmin_list m m1)%Q as C by lra. apply Qle_bool_iff in C. congruence.
Qed.
Print Assumptions secondary_succeeds.

Example secondary_case : exists l g',
  generate_secondary_masses N ex_next ex_scale (fun a b => Qred (a / b)) (fun a b => Qred (a * b))
    "flat_mass_ratio" (35#100) 120 [7; 200; 40]%Q 1%N = Ok (Some l, g') /\ length l = 3.
Proof. eexists _, _. split; vm_compute; reflexivity. Qed.

(** Equality of primary mass and limit is refused, although the text of the error speaks of
    primary masses below the limit only. *)
Theorem secondary_at_limit_refuted : exists m1 smin smax,
  Forall (fun m => smin <= m)%Q m1 /\
  generate_secondary_masses N ex_next ex_scale (fun a b => Qred (a / b)) (fun a b => Qred (a * b))
    "flat_mass_ratio" smin smax m1 1%N = Raise ValueError.
Proof.
  exists [1]%Q, 1%Q, 120%Q. split; [repeat constructor; lra | vm_compute; reflexivity].
Qed.

(** In double precision the lower limit itself can be missed by a rounding error.  [rnd53] is
    rounding to nearest, ties to even, with 53 bits, for positive numbers in normal range. *)
Definition rnd53 (q : Q) : Q :=
  match Qnum q with
  | Zpos _ =>
      let n := Qnum q in let d := Zpos (Qden q) in
      let k0 := (53 - (Z.log2 n - Z.log2 d))%Z in
      let fl k := (if (0 <=? k)%Z then (Z.shiftl n k / d)%Z else (n / Z.shiftl d (- k))%Z) in
      let k := if (fl k0 <? 2 ^ 53)%Z then k0 else (if (fl (k0 - 1) <? 2 ^ 53)%Z then (k0 - 1)%Z else (k0 - 2)%Z) in
      let f := fl k in
      let half := if (0 <=? k)%Z then (2 * (Z.shiftl n k - f * d) ?= d)%Z
                  else (2 * (n - f * Z.shiftl d (- k)) ?= Z.shiftl d (- k))%Z in
      let r := match half with Lt => f | Gt => (f + 1)%Z | Eq => if Z.even f then f else (f + 1)%Z end in
      if (0 <=? k)%Z then Qred (inject_Z r / inject_Z (2 ^ k)) else inject_Z (r * 2 ^ (- k))
  | _ => q
  end.
Definition fl035 : Q := (3152519739159347 # 9007199254740992).
(** The same operations in Coq's specification of IEEE floats. *)
Definition sf (m : positive) (e : Z) : spec_float := S754_finite false m e.
Example rnd53_is_double :
  rnd53 (35 # 100) = fl035 /\
  SFdiv 53 1024 (sf 6305039478318694 (-54)) (sf 5559130790035456 (-46)) = sf 5107880083701220 (-60) /\
  rnd53 (fl035 / 79) = Qred (inject_Z 5107880083701220 / inject_Z (2 ^ 60)).
Proof. vm_compute. split; [|split]; reflexivity. Qed.

Theorem secondary_rounding_refuted : exists l g',
  generate_secondary_masses unit (fun _ => (0%Q, tt)) ex_scale (fun a b => rnd53 (a / b)) (fun a b => rnd53 (a * b))
    "flat_mass_ratio" fl035 120 [79]%Q tt = Ok (Some l, g') /\
  exists m2, l = [m2] /\ (m2 < fl035)%Q.
Proof.
  eexists _, _. split; [vm_compute; reflexivity|]. eexists. split; [reflexivity|]. vm_compute. reflexivity.
Qed.

(** The binary fraction of Moe & Di Stefano. *)
Theorem moe_bins : forall m,
  ((16 < m)%Q -> moe_fraction (Fin m) = Fin (94 # 100)) /\
  ((9 < m /\ m <= 16)%Q -> moe_fraction (Fin m) = Fin (84 # 100)) /\
  ((5 < m /\ m <= 9)%Q -> moe_fraction (Fin m) = Fin (76 # 100)) /\
  ((2 < m /\ m <= 5)%Q -> moe_fraction (Fin m) = Fin (59 # 100)) /\
  ((m <= 2)%Q -> moe_fraction (Fin m) = Fin (40 # 100)).
Proof.
  intro m. unfold moe_fraction.
  assert (forall c, (ngt (Fin m) (Fin c) = true <-> c < m)%Q) as GT.
  { intro c. unfold ngt, nlt. cbn. rewrite Bool.negb_true_iff. split; intro H.
    - apply Qnot_le_lt. intro C. apply Qle_bool_iff in C. congruence.
    - destruct (Qle_bool m c) eqn:E; [|reflexivity]. apply Qle_bool_iff in E. lra. }
  assert (forall c, (ngt (Fin m) (Fin c) = false <-> m <= c)%Q) as GF.
  { intro c. destruct (ngt (Fin m) (Fin c)) eqn:E; split; intro H; try reflexivity; try discriminate.
    - apply GT in E. lra.
    - apply Qnot_lt_le. intro C. apply GT in C. congruence. }
  assert (forall c, (nle (Fin m) (Fin c) = true <-> m <= c)%Q) as LE.
  { intro c. cbn. apply Qle_bool_iff. }
  repeat split.
  - intro H. rewrite (proj2 (GT 16%Q)) by lra. reflexivity.
  - intro H. rewrite (proj2 (GF 16%Q)), (proj2 (LE 16%Q)), (proj2 (GT 9%Q)) by lra. reflexivity.
  - intro H. rewrite (proj2 (GF 16%Q)), (proj2 (LE 16%Q)), (proj2 (GF 9%Q)), (proj2 (LE 9%Q)), (proj2 (GT 5%Q)) by lra. reflexivity.
  - intro H. rewrite (proj2 (GF 16%Q)), (proj2 (LE 16%Q)), (proj2 (GF 9%Q)), (proj2 (LE 9%Q)), (proj2 (GF 5%Q)), (proj2 (LE 5%Q)), (proj2 (GT 2%Q)) by lra. reflexivity.
  - intro H. rewrite (proj2 (GF 16%Q)), (proj2 (LE 16%Q)), (proj2 (GF 9%Q)), (proj2 (LE 9%Q)), (proj2 (GF 5%Q)), (proj2 (LE 5%Q)), (proj2 (GF 2%Q)), (proj2 (LE 2%Q)) by lra. reflexivity.
Qed.
Print Assumptions moe_bins.

(** Single stars.  [u] is the raw number for the star and [f] its binary fraction; the star is
    single when u > f.  Orbit, eccentricity and secondary become undefined together, the
    primary mass stays. *)
Definition fraction_of (scheme : string) (const : num) (m : Q) (f : num) :=
  (scheme = "const" /\ f = const) \/ (scheme = "Moe+17-massdependent" /\ f = moe_fraction (Fin m)).
Definition sized {G A} (gen : nat -> G -> run (list A * G)) :=
  forall n g l g', gen n g = Some (Ok (l, g')) -> length l = n.

Lemma mask_nth : forall us (f : list num) i u x, nth_error us i = Some u -> nth_error f i = Some x ->
  nth_error (map (fun p => ngt (Fin (fst p)) (snd p)) (combine us f)) i = Some (ngt (Fin u) x).
Proof.
  induction us as [|a us IH]; intros [|b f] [|i] u x H1 H2; try discriminate; cbn in *.
  - congruence.
  - apply IH; assumption.
Qed.

Lemma flat_len : forall G (next : G -> Q * G) scale fdiv fmul smin smax m1 g l g',
  flat_secondaries G next scale fdiv fmul smin smax m1 g = Ok (l, g') -> length l = length m1.
Proof. intros. eapply flat_skip. eassumption. Qed.

Theorem singles_keep_primary : forall G (next : G -> Q * G) scale fdiv fmul c scheme k g q g',
  sized (c_m1 G c) -> sized (c_sep G c) -> (forall m1, sized (c_per G c m1)) -> sized (c_ecc G c) ->
  c_secondary_scheme G c = "flat_mass_ratio" ->
  generate_independent_samples G next scale fdiv fmul c scheme k g = Some (Ok (q, g')) ->
  let n := match k_number k with Some n => n | None => 1 end in
  exists m1 g1 m2 g2 o e first, 
    c_m1 G c n g = Some (Ok (m1, g1)) /\ length m1 = n /\
    generate_secondary_masses G next scale fdiv fmul "flat_mass_ratio" (c_smin G c) (c_smax G c) m1 g1 = Ok (Some m2, g2) /\
    length o = n /\ length e = n /\
    q_m1 q = map Fin m1 /\ length (q_m2 q) = n /\ length (q_orbit q) = n /\ length (q_ecc q) = n /\
    forall i m m2i oi ei, nth_error m1 i = Some m -> nth_error m2 i = Some m2i -> nth_error o i = Some oi ->
      nth_error e i = Some ei ->
      exists u f, u = raw_at next first i /\ fraction_of (c_fraction_scheme G c) (c_fraction G c) m f /\
        (ngt (Fin u) f = true -> nth_error (q_m2 q) i = Some NaN /\ nth_error (q_orbit q) i = Some NaN /\
                                 nth_error (q_ecc q) i = Some NaN) /\
        (ngt (Fin u) f = false -> nth_error (q_m2 q) i = Some (Fin m2i) /\ nth_error (q_orbit q) i = Some oi /\
                                  nth_error (q_ecc q) i = Some ei).
Proof.
  intros G next scale fdiv fmul c scheme k g q g' Z1 Zs Zp Ze SC H n.
  apply indep_inv in H.
  destruct H as (m1 & g1 & m2 & g2 & o & g3 & e & g4 & f & E1 & E2 & E3 & E4 & E5 & _ & HQ).
  change (number k) with n in *.
  rewrite SC in E2. pose proof (secondary_inv _ _ _ _ _ _ _ _ _ _ _ _ E2) as S2.
  destruct S2 as (_ & _ & [(_ & l & -> & EF) | (X & _)]); [|discriminate].
  cbv zeta in HQ. set (mask := map (fun p => ngt (Fin (fst p)) (snd p)) (combine (fst (raws G next (length m1) g4)) f)) in *.
  destruct HQ as (QO & QE & Q1 & Q2).
  pose proof (Z1 _ _ _ _ E1) as L1. pose proof (Ze _ _ _ _ E4) as Le.
  assert (length o = n) as Lo. { destruct E3 as [(_ & E3)|(_ & E3)]; [apply (Zs _ _ _ _ E3) | apply (Zp _ _ _ _ _ E3)]. }
  pose proof (flat_len _ _ _ _ _ _ _ _ _ _ _ EF) as L2.
  assert (length f = n) as Lf.
  { destruct (fraction_ok _ _ _ _ E5) as [(_ & ->)|(_ & ->)]; rewrite !map_length; exact L1. }
  assert (length mask = n) as Lm.
  { unfold mask. rewrite map_length, combine_length, raws_length. lia. }
  assert (forall l, length l = n -> length (nan_where mask l) = n) as LN.
  { intros l0. rewrite <- Lm. clear. revert l0. induction mask as [|b mk IH]; intros [|x l0] L; cbn in *; try lia.
    rewrite IH; lia. }
  exists m1, g1, l, g2, o, e, g4.
  split; [exact E1|]. split; [exact L1|]. split; [exact E2|]. split; [exact Lo|]. split; [exact Le|].
  split; [exact Q1|]. split; [rewrite Q2; apply LN; rewrite map_length; lia|].
  split; [rewrite QO; apply LN; exact Lo|]. split; [rewrite QE; apply LN; exact Le|].
  intros i m m2i oi ei N1 N2 No Ne.
  assert (i < n) as LI. { rewrite <- L1. apply nth_error_Some. congruence. }
  assert (exists fi, nth_error f i = Some fi /\ fraction_of (c_fraction_scheme G c) (c_fraction G c) m fi) as (fi & NF & FO).
  { destruct (fraction_ok _ _ _ _ E5) as [(ES & ->)|(ES & ->)].
    - exists (c_fraction G c). rewrite !nth_map_error, N1. split; [reflexivity|]. left. split; [exact ES | reflexivity].
    - exists (moe_fraction (Fin m)). rewrite !nth_map_error, N1. split; [reflexivity|]. right. split; [exact ES | reflexivity]. }
  assert (nth_error mask i = Some (ngt (Fin (raw_at next g4 i)) fi)) as NM.
  { apply mask_nth; [|exact NF]. rewrite raws_nth by lia. rewrite raw_at_skip. reflexivity. }
  exists (raw_at next g4 i), fi. split; [reflexivity|]. split; [exact FO|].
  rewrite Q2, QO, QE. rewrite !nan_where_nth by (rewrite ?map_length; lia). rewrite NM.
  rewrite nth_map_error, N2, No, Ne. split; intro HU; rewrite HU; cbn; auto.
Qed.
Print Assumptions singles_keep_primary.

(** A configuration with log-uniform-like orbits, for the examples. *)
Definition ex_div (a b : Q) := Qred (a / b).
Definition ex_mul (a b : Q) := Qred (a * b).
Definition ex_config (scheme : string) : config N :=
  Config N (by_uniform N ex_next ex_scale (fun x => x) 7 60) scheme (35#100) 120
    (by_uniform N ex_next ex_scale Fin 5 100) (fun _ => by_uniform N ex_next ex_scale Fin 1 10) (zeros N)
    "const" (Fin (1#2)).
Notation ex_sampler s := (generate_independent_samples N ex_next ex_scale ex_div ex_mul (ex_config s)).
Lemma by_uniform_steady : forall G (next : G -> Q * G) scale A (f : Q -> A) lo hi,
  steady next 1 (by_uniform G next scale f lo hi).
Proof.
  intros G next scale A f lo hi n g l g' H. unfold by_uniform in H.
  pose proof (uniform_skip G next scale lo hi n g) as K. pose proof (uniform_length G next scale lo hi n g) as L.
  destruct (uniform G next scale lo hi n g) as [us g1]. cbn in K, L. unfold ret in H.
  assert (l = map f us) as -> by congruence. assert (g' = g1) as -> by congruence.
  rewrite map_length, K, Nat.mul_1_l, <- skip_iter. auto.
Qed.
Lemma zeros_steady : forall G (next : G -> Q * G), steady next 0 (zeros G).
Proof.
  intros G next n g l g' H. unfold zeros, ret in H. assert (l = repeat (Fin 0) n) as -> by congruence.
  assert (g' = g) as -> by congruence. rewrite repeat_length. split; reflexivity.
Qed.
Lemma steady_sized : forall G (next : G -> Q * G) A c (gen : nat -> G -> run (list A * G)), steady next c gen -> sized gen.
Proof. intros G next A c gen H n g l g' E. apply (H n g l g' E). Qed.

Example singles_case : exists q g',
  ex_sampler "flat_mass_ratio" (Some "separation") (Kw (Some 4) None None NoPath) 5%N = Some (Ok (q, g')) /\
  exists i, nth_error (q_m2 q) i = Some NaN /\ exists j x, nth_error (q_m2 q) j = Some (Fin x).
Proof.
  eexists _, _. split; [vm_compute; reflexivity|]. vm_compute.
  first [exists 0; split; [reflexivity|] | exists 1; split; [reflexivity|] | exists 2; split; [reflexivity|] | exists 3; split; [reflexivity|]];
  first [exists 0; eexists; reflexivity | exists 1; eexists; reflexivity | exists 2; eexists; reflexivity].
Qed.

(** For 'q=1' the secondary masses are the primary masses themselves: making the secondary of
    a single star undefined makes its primary undefined as well. *)
Theorem equal_masses_exact : forall G (next : G -> Q * G) scale fdiv fmul c scheme k g q g',
  sized (c_m1 G c) -> c_secondary_scheme G c = "q=1" ->
  generate_independent_samples G next scale fdiv fmul c scheme k g = Some (Ok (q, g')) ->
  q_m2 q = q_m1 q /\
  exists m1 g1 first, c_m1 G c (match k_number k with Some n => n | None => 1 end) g = Some (Ok (m1, g1)) /\
    forall i m, nth_error m1 i = Some m -> exists u f, u = raw_at next first i /\
      fraction_of (c_fraction_scheme G c) (c_fraction G c) m f /\
      nth_error (q_m1 q) i = Some (if ngt (Fin u) f then NaN else Fin m).
Proof.
  intros G next scale fdiv fmul c scheme k g q g' Z1 SC H. apply indep_inv in H.
  destruct H as (m1 & g1 & m2 & g2 & o & g3 & e & g4 & f & E1 & E2 & E3 & E4 & E5 & _ & HQ).
  rewrite SC in E2. pose proof (secondary_inv _ _ _ _ _ _ _ _ _ _ _ _ E2) as S2.
  destruct S2 as (_ & _ & [(X & _) | (_ & -> & _)]); [discriminate|].
  cbv zeta in HQ. destruct HQ as (QO & QE & Q1 & Q2). split; [exact Q2|].
  exists m1, g1, g4. split; [exact E1|]. intros i m N1.
  assert (i < length m1) as LI. { apply nth_error_Some. congruence. }
  assert (length f = length m1) as Lf.
  { destruct (fraction_ok _ _ _ _ E5) as [(_ & ->)|(_ & ->)]; rewrite !map_length; reflexivity. }
  assert (exists fi, nth_error f i = Some fi /\ fraction_of (c_fraction_scheme G c) (c_fraction G c) m fi) as (fi & NF & FO).
  { destruct (fraction_ok _ _ _ _ E5) as [(ES & ->)|(ES & ->)].
    - exists (c_fraction G c). rewrite !nth_map_error, N1. split; [reflexivity|]. left. split; [exact ES | reflexivity].
    - exists (moe_fraction (Fin m)). rewrite !nth_map_error, N1. split; [reflexivity|]. right. split; [exact ES | reflexivity]. }
  exists (raw_at next g4 i), fi. split; [reflexivity|]. split; [exact FO|].
  rewrite Q1, nan_where_nth. 2: { rewrite !map_length, combine_length, raws_length. lia. }
  erewrite mask_nth; [|rewrite raws_nth by lia; rewrite <- raw_at_skip; reflexivity | exact NF].
  rewrite nth_map_error, N1. destruct (ngt _ fi); reflexivity.
Qed.
Print Assumptions equal_masses_exact.
Theorem equal_masses_primary_refuted : exists q g' i,
  ex_sampler "q=1" (Some "separation") (Kw (Some 4) None None NoPath) 9%N = Some (Ok (q, g')) /\
  nth_error (q_m1 q) i = Some NaN.
Proof.
  eexists _, _.
  first [exists 0; split; [vm_compute; reflexivity | reflexivity] | exists 1; split; [vm_compute; reflexivity | reflexivity]
       | exists 2; split; [vm_compute; reflexivity | reflexivity] | exists 3; split; [vm_compute; reflexivity | reflexivity]].
Qed.

(** * C26: the n-th binary *)
(** With a sampler that takes a fixed number of random numbers per binary, an explicit orbital
    scheme and formation times that take none (a burst), get_binary_by_iter(n), n >= 1, is the
    n-th binary of a sequence, except that it gets the index n instead of n-1; the object is
    unchanged. *)
Theorem by_iter_nth : forall G (next : G -> Q * G) scale fdiv fmul c kicks formation_times period_of separation_of
    c1 co ce k s n o b o1 bs o2,
  steady next c1 (c_m1 G c) -> orbit_steady G next c s co -> steady next ce (c_ecc G c) ->
  (forall n g l g', formation_times n g = Some (Ok (l, g')) -> g' = g) ->
  (k_path k = NoPath \/ k_path k = EmptyPath) -> k_index k = None -> k_scheme k = Some s -> 1 <= n ->
  get_binary_by_iter G (generate_independent_samples G next scale fdiv fmul c) kicks formation_times period_of separation_of
    n k o = Some (Ok (b, o1)) ->
  draw_many G (generate_independent_samples G next scale fdiv fmul c) kicks formation_times period_of separation_of
    n k (reset_rng G o) = Some (Ok (bs, o2)) ->
  o1 = o /\ exists b', nth_error bs (n - 1) = Some b' /\ b_index b' = n - 1 /\ b = with_index n b'.
Proof.
  intros G next scale fdiv fmul c kicks formation_times period_of separation_of c1 co ce k s n o b o1 bs o2
    S1 So Se T NF NI SC N H M.
  eapply (by_iter_ok G next); try eassumption.
  - intros. apply indep_kw. assumption.
  - intros m g q g' E. rewrite SC in E. cbn [set_number] in E.
    apply (indep_skip G next scale fdiv fmul c c1 co ce s S1 So Se) in E. exact E.
Qed.
Print Assumptions by_iter_nth.

Theorem by_iter_first : forall G (next : G -> Q * G) scale fdiv fmul c kicks formation_times period_of separation_of
    c1 co ce k s o b o1 bs o2,
  steady next c1 (c_m1 G c) -> orbit_steady G next c s co -> steady next ce (c_ecc G c) ->
  (forall n g l g', formation_times n g = Some (Ok (l, g')) -> g' = g) ->
  (k_path k = NoPath \/ k_path k = EmptyPath) -> k_index k = None -> k_scheme k = Some s ->
  get_binary_by_iter G (generate_independent_samples G next scale fdiv fmul c) kicks formation_times period_of separation_of
    0 k o = Some (Ok (b, o1)) ->
  draw_many G (generate_independent_samples G next scale fdiv fmul c) kicks formation_times period_of separation_of
    1 k (reset_rng G o) = Some (Ok (bs, o2)) ->
  o1 = o /\ bs = [b].
Proof.
  intros G next scale fdiv fmul c kicks formation_times period_of separation_of c1 co ce k s o b o1 bs o2
    S1 So Se T NF NI SC H M.
  eapply (by_iter_zero G next); try eassumption.
  - intros. apply indep_kw. assumption.
  - intros m g q g' E. rewrite SC in E. cbn [set_number] in E.
    apply (indep_skip G next scale fdiv fmul c c1 co ce s S1 So Se) in E. exact E.
Qed.
Print Assumptions by_iter_first.

(** get_binary_by_iter(1) never works: it first draws a sample of zero binaries, and the
    smallest of no primary masses is an error. *)
Theorem by_iter_one_raises : forall G (next : G -> Q * G) scale fdiv fmul c kicks formation_times period_of separation_of k o g',
  c_m1 G c 0 (original G o) = Some (Ok ([], g')) ->
  get_binary_by_iter G (generate_independent_samples G next scale fdiv fmul c) kicks formation_times period_of separation_of
    1 k o = Some (Raise ValueError).
Proof.
  intros G next scale fdiv fmul c kicks formation_times period_of separation_of k o g' H.
  unfold get_binary_by_iter. cbn [Nat.eqb Nat.sub]. unfold generate_independent_samples at 1.
  cbn [k_number set_number]. rewrite H. cbn [bind]. unfold generate_secondary_masses, ret.
  destruct (negb _); reflexivity.
Qed.
Print Assumptions by_iter_one_raises.

Definition no_times (n : nat) (g : N) : run (list num * N) := Some (Ok (repeat (Fin 0) n, g)).
Definition random_times (n : nat) (g : N) : run (list num * N) := by_uniform N ex_next ex_scale Fin 0 100 n g.
Definition no_file_kicks (k : kwargs) : run (list kick_row * list kick_row) := Some (Ok ([], [])).
Definition kw_sep := Kw None None (Some "separation") NoPath.
Notation ex_by_iter s t := (get_binary_by_iter N (ex_sampler s) no_file_kicks t (fun a _ _ => a) (fun a _ _ => a)).
Notation ex_many s t := (draw_many N (ex_sampler s) no_file_kicks t (fun a _ _ => a) (fun a _ _ => a)).

Example by_iter_case :
  steady ex_next 1 (c_m1 N (ex_config "flat_mass_ratio")) /\
  orbit_steady N ex_next (ex_config "flat_mass_ratio") "separation" 1 /\
  steady ex_next 0 (c_ecc N (ex_config "flat_mass_ratio")) /\
  (exists b o, ex_by_iter "flat_mass_ratio" no_times 3 kw_sep (Gen N 4%N 77%N 9) = Some (Ok (b, o)) /\ b_index b = 3) /\
  (exists bs o, ex_many "flat_mass_ratio" no_times 3 kw_sep (Gen N 4%N 4%N 0) = Some (Ok (bs, o)) /\ length bs = 3) /\
  (exists b o, ex_by_iter "flat_mass_ratio" no_times 0 kw_sep (Gen N 4%N 77%N 9) = Some (Ok (b, o)) /\ b_index b = 0) /\
  ex_by_iter "flat_mass_ratio" no_times 1 kw_sep (Gen N 4%N 77%N 9) = Some (Raise ValueError).
Proof.
  split; [apply by_uniform_steady|]. split; [left; split; [reflexivity | apply by_uniform_steady]|].
  split; [apply zeros_steady|].
  split; [eexists _, _; split; [vm_compute; reflexivity | reflexivity]|].
  split; [eexists _, _; split; [vm_compute; reflexivity | reflexivity]|].
  split; [eexists _, _; split; [vm_compute; reflexivity | reflexivity]|].
  vm_compute. reflexivity.
Qed.

(** False when formation times are random (star_formation = 'constant'). *)
Theorem by_iter_random_times_refuted : exists b o1 bs o2 b',
  ex_by_iter "flat_mass_ratio" random_times 3 kw_sep (Gen N 4%N 4%N 0) = Some (Ok (b, o1)) /\
  ex_many "flat_mass_ratio" random_times 3 kw_sep (Gen N 4%N 4%N 0) = Some (Ok (bs, o2)) /\
  nth_error bs 2 = Some b' /\ b_m1 b <> b_m1 b'.
Proof.
  eexists _, _, _, _, _. split; [vm_compute; reflexivity|]. split; [vm_compute; reflexivity|].
  split; [reflexivity|]. discriminate.
Qed.

(** False when the orbital scheme is left to its default: the skipped binaries are then drawn
    with periods (the default of the sampler) and the binary itself with a separation (the
    default of the generator); here periods by Sana et al. (2012) for massive primaries, whose
    rejection sampling takes more numbers than the log-uniform separation. *)
Definition sana_config : config N :=
  Config N (by_uniform N ex_next ex_scale (fun x => x) 20 60) "flat_mass_ratio" (35#100) 120
    (by_uniform N ex_next ex_scale Fin 5 100)
    (fun m1 => sana_periods N ex_next ex_scale 10 0 3 Fin (fun _ => 1%Q) m1) (zeros N) "const" (Fin (1#2)).
Notation sana_sampler := (generate_independent_samples N ex_next ex_scale ex_div ex_mul sana_config).
Theorem by_iter_default_scheme_refuted : exists b o1 bs o2 b',
  let k := Kw None None None NoPath in
  get_binary_by_iter N sana_sampler no_file_kicks no_times (fun a _ _ => a) (fun a _ _ => a) 3 k (Gen N 4%N 4%N 0) = Some (Ok (b, o1)) /\
  draw_many N sana_sampler no_file_kicks no_times (fun a _ _ => a) (fun a _ _ => a) 3 k (Gen N 4%N 4%N 0) = Some (Ok (bs, o2)) /\
  nth_error bs 2 = Some b' /\ b_m1 b <> b_m1 b'.
Proof.
  eexists _, _, _, _, _. cbv zeta. split; [vm_compute; reflexivity|]. split; [vm_compute; reflexivity|].
  split; [reflexivity|]. vm_compute. discriminate.
Qed.

(** False for rejection sampling even with an explicit scheme: the 50000 probes are drawn once
    per call, not once per binary. *)
Theorem by_iter_rejection_refuted : exists b o1 bs o2 b',
  let k := Kw None None (Some "period") NoPath in
  get_binary_by_iter N sana_sampler no_file_kicks no_times (fun a _ _ => a) (fun a _ _ => a) 3 k (Gen N 4%N 4%N 0) = Some (Ok (b, o1)) /\
  draw_many N sana_sampler no_file_kicks no_times (fun a _ _ => a) (fun a _ _ => a) 3 k (Gen N 4%N 4%N 0) = Some (Ok (bs, o2)) /\
  nth_error bs 2 = Some b' /\ b_m1 b <> b_m1 b'.
Proof.
  eexists _, _, _, _, _. cbv zeta. split; [vm_compute; reflexivity|]. split; [vm_compute; reflexivity|].
  split; [reflexivity|]. vm_compute. discriminate.
Qed.
