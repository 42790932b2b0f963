(** Theorems about the roles of the stars in the detached step. *)
From Coq Require Import String Bool List.
From Verif Require Import PyBase FlowChartModel DetStepModel.
Import ListNotations.

(** ** Specification: kinds of stars *)
Inductive kind := Hydrogen | Helium | Compact | Missing | Unknown.
Definition kind_of (s : star_state) : kind :=
  match s with
  | HR_Core_H_burning | HR_Core_He_burning | HR_Shell_H_burning | HR_Core_He_depleted | HR_Shell_He_burning | HR_Core_C_burning
  | HR_Core_C_depleted | HR_non_burning | acc_Core_H_burning | acc_Shell_H_burning | acc_non_burning => Hydrogen
  | str_Core_He_burning | str_Core_He_depleted | str_Core_C_depleted | str_non_burning | acc_Core_He_burning => Helium
  | WD | NS | BH => Compact
  | massless_remnant => Missing
  | SOther _ => Unknown
  end.
(** How far a star has evolved. *)
Definition rank (k : kind) : nat := match k with Hydrogen => 0 | Helium => 1 | Compact => 2 | Missing => 3 | Unknown => 4 end.
Definition star_of (w : who) (s1 s2 : star_state) : star_state := match w with Star1 => s1 | Star2 => s2 end.
Definition swap (w : who) : who := match w with Star1 => Star2 | Star2 => Star1 end.
Definition mirrored (r : roles) : roles := Roles (swap (r_primary r)) (p_co r) (p_htrack r) (s_co r) (s_htrack r) (r_only_CO r).

(** ** C99 *)
Theorem C99_refused : forall s1 s2,
  (s1 = massless_remnant -> s2 = massless_remnant -> determine_star_states s1 s2 = Raise (OtherError "POSYDONError"%string)) /\
  ((exists n, s1 = SOther n) \/ (exists n, s2 = SOther n) -> determine_star_states s1 s2 = Raise ValueError).
Proof.
  intros s1 s2. split; [intros -> ->; reflexivity|].
  intros [[n ->]|[n ->]]; [destruct s2|destruct s1]; reflexivity.
Qed.
Print Assumptions C99_refused.
(** The primary is the more evolved of the stars, star 1 if they are alike; a star that does not exist counts as the most evolved. *)
Theorem C99_primary : forall s1 s2, kind_of s1 <> Unknown -> kind_of s2 <> Unknown -> ~ (s1 = massless_remnant /\ s2 = massless_remnant) ->
  exists r, determine_star_states s1 s2 = Ok r /\
  (r_primary r = Star1 <-> rank (kind_of s2) <= rank (kind_of s1)) /\
  let p := kind_of (star_of (r_primary r) s1 s2) in
  let s := kind_of (star_of (swap (r_primary r)) s1 s2) in
  (* the secondary is what it is; a missing primary counts as a compact object *)
  s_co r = (if Nat.eqb (rank s) 2 then true else false) /\
  p_co r = (if Nat.leb 2 (rank p) then true else false) /\
  (* which grid of single stars *)
  s_htrack r = (if Nat.eqb (rank s) 0 then true else false) /\
  p_htrack r = (if Nat.leb 2 (rank p) then s_htrack r else if Nat.eqb (rank p) 0 then true else false) /\
  (* nothing but a single compact object *)
  r_only_CO r = (if Nat.eqb (rank p) 3 then if Nat.eqb (rank s) 2 then true else false else false).
Proof.
  intros s1 s2 K1 K2 N.
  destruct s1; try (destruct (K1 eq_refl)); destruct s2; try (destruct (K2 eq_refl)); try (destruct N; split; reflexivity);
    (eexists; split; [vm_compute; reflexivity|]; cbn; repeat split; try reflexivity; try discriminate; intros; repeat constructor; try (exfalso; repeat match goal with H : S _ <= _ |- _ => inversion H; clear H; subst end); try (exfalso; match goal with H : _ <= 0 |- _ => inversion H end)).
Qed.
Print Assumptions C99_primary.
(** Exchanging the stars exchanges the roles, if the stars differ in kind. *)
Theorem C99_mirror : forall s1 s2 r, kind_of s1 <> kind_of s2 -> determine_star_states s1 s2 = Ok r -> determine_star_states s2 s1 = Ok (mirrored r).
Proof.
  intros s1 s2 r N E. destruct s1, s2; try (destruct N; reflexivity); vm_compute in E; try discriminate; apply (f_equal (fun x => match x with Ok y => mirrored y | Raise _ => mirrored r end)) in E; rewrite <- E; reflexivity.
Qed.
Print Assumptions C99_mirror.
Example C99_cases :
  (exists r, determine_star_states HR_Core_H_burning BH = Ok r /\ r_primary r = Star2 /\ p_co r = true /\ p_htrack r = true) /\
  (exists r, determine_star_states str_non_burning acc_non_burning = Ok r /\ r_primary r = Star1 /\ s_htrack r = true /\ p_htrack r = false) /\
  (exists r, determine_star_states massless_remnant NS = Ok r /\ r_only_CO r = true) /\
  determine_star_states BH (SOther "stripped_He_Core_H_burning"%string) = Raise ValueError.
Proof. repeat split; try (eexists; vm_compute; repeat split; reflexivity). Qed.
