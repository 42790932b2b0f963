(** Theorems about what the detached step stores. *)
From Coq Require Import String Bool List ZArith PeanoNat Lia Reals Lra.
From Verif Require Import PyBase RealLemmas OrbitModel OrbitProofs InspiralModel DetStepModel DetSpinProps DetStoreModel.
Import ListNotations.
Open Scope string_scope.
Open Scope R_scope.
Open Scope list_scope.

(** ** Specification *)
(** Columns of the grid of single stars that the star gets under the same name and in the units of the grid. *)
Definition copied : list string := [
   "mass"; "log_R"; "log_L"; "he_core_mass"; "c_core_mass"; "c_core_radius"; "o_core_mass"; "o_core_radius"; "co_core_mass"; "co_core_radius";
   "center_h1"; "center_he4"; "center_c12"; "center_n14"; "center_o16"; "surface_h1"; "surface_he4"; "surface_n14"; "surface_o16";
   "log_LH"; "log_LHe"; "log_LZ"; "log_Lnuc"; "c12_c12"; "center_gamma"; "avg_c_in_c_core"; "conv_env_top_mass"; "conv_env_bot_mass";
   "conv_env_top_radius"; "conv_env_bot_radius"; "conv_env_turnover_time_g"; "conv_env_turnover_time_l_t"; "envelope_binding_energy";
   "mass_conv_reg_fortides"; "thickness_conv_reg_fortides"; "radius_conv_reg_fortides"; "lambda_CE_1cent"; "lambda_CE_10cent"; "lambda_CE_30cent";
   "lambda_CE_pure_He_star_10cent"; "total_mass_h1"; "total_mass_he4"].
Definition lost : list string := ["lg_system_mdot"; "he_core_radius"; "surface_c12"].
Definition kept : list string := ["state"; "metallicity"].
Definition computed : list string := ["lg_mdot"; "lg_wind_mdot"; "surf_avg_omega"; "surf_avg_omega_div_omega_crit"; "total_moment_of_inertia"; "log_total_angular_momentum"; "spin"].

(** ** C103 *)
Lemma all_in l l' : forallb (fun k => mem k l') l = true -> forall k, In k l -> In k l'.
Proof.
  intros H k K. rewrite forallb_forall in H. specialize (H k K). unfold mem in H. apply existsb_exists in H. destruct H as (y & I & E).
  apply String.eqb_eq in E. subst y. exact I.
Qed.
(** Every property of a star is one of these: copied, computed, kept, lost, the turnover time or the profile. *)
Theorem C103_all : forall key, In key STARPROPERTIES <-> In key (copied ++ computed ++ kept ++ lost ++ ["conv_env_turnover_time_l_b"; "profile"]).
Proof. intro key. split; apply all_in; vm_compute; reflexivity. Qed.
Theorem C103_stored : forall raw omega,
  (forall key, In key copied -> star_property raw omega key = Num (raw key)) /\
  (forall key, In key kept -> star_property raw omega key = Kept) /\
  (forall key, In key lost -> star_property raw omega key = NaN) /\
  star_property raw omega "profile" = PyNone /\
  (exists x, star_property raw omega "conv_env_turnover_time_l_b" = Num x /\ x * 3.1558149984e7 = raw "conv_env_turnover_time_l_b").
Proof.
  intros raw omega. split; [|split; [|split; [|split]]].
  - intros key H. unfold copied in H. repeat (destruct H as [<-|H]; [reflexivity|]). destruct H.
  - intros key H. unfold kept in H. repeat (destruct H as [<-|H]; [reflexivity|]). destruct H.
  - intros key H. unfold lost in H. repeat (destruct H as [<-|H]; [reflexivity|]). destruct H.
  - reflexivity.
  - exists (raw "conv_env_turnover_time_l_b" / secyer). split; [reflexivity|]. change 3.1558149984e7 with secyer. assert (Y := year). set (y := secyer) in *. clearbody y. field. lra.
Qed.
(** Of the times of the convective envelope two are in the units of the grid and one is not. *)
Theorem C103_units_refuted : ~ (forall raw omega key x, In key ["conv_env_turnover_time_g"; "conv_env_turnover_time_l_t"; "conv_env_turnover_time_l_b"] ->
  star_property raw omega key = Num x -> x = raw key).
Proof.
  intro H. assert (E := H (fun _ => 3.1558149984e7) 0 "conv_env_turnover_time_l_b" (3.1558149984e7 / secyer) ltac:(right; right; left; reflexivity) eq_refl).
  assert (Y : 3.1558149984e7 / secyer = 1) by (change 3.1558149984e7 with secyer; field; apply Rgt_not_eq, year). rewrite Y in E. cbv beta in E. lra.
Qed.
(** The computed ones belong together: the angular momentum is that of the spin and the moment of inertia of the grid; the dimensionless spin is
    c J / (G M^2); the ratio to the critical rate that of a sphere of the mass and radius; the rate of mass loss is that of the track. *)
Theorem C103_consistent : forall raw omega, 0 < omega -> 0 < raw "inertia" -> 0 < raw "mass" ->
  exists w i j a f, star_property raw omega "surf_avg_omega" = Num w /\ star_property raw omega "total_moment_of_inertia" = Num i /\
    star_property raw omega "log_total_angular_momentum" = Num j /\ star_property raw omega "spin" = Num a /\
    star_property raw omega "surf_avg_omega_div_omega_crit" = Num f /\
    w * 3.1558149984e7 = omega /\ i = raw "inertia" /\ pow10 j = i * w /\
    a * (6.67428e-8 * (raw "mass" * 1.9892e33) ^ 2) = 2.99792458e10 * pow10 j /\
    0 < f /\ (w / f) ^ 2 * (pow10 (raw "log_R") * 6.9598e10) ^ 3 = 6.67428e-8 * (raw "mass" * 1.9892e33).
Proof.
  intros raw omega W I M. do 5 eexists. do 5 (split; [reflexivity|]).
  change (column raw "inertia") with (raw "inertia" / (Msun * Rsun ^ 2)). change (column raw "mass") with (raw "mass"). change (column raw "R") with (pow10 (raw "log_R")).
  change 6.9598e10 with Rsun. change 6.67428e-8 with standard_cgrav. change 1.9892e33 with Msun. change 3.1558149984e7 with secyer. change 2.99792458e10 with clight.
  assert (CL : 0 < clight) by (unfold clight; lra).
  destruct constants_pos as (_ & CG & CM & CR & _). assert (Y := year). assert (PR : 0 < pow10 (raw "log_R")) by apply Rpower_pos.
  set (G := standard_cgrav) in *. set (Ms := Msun) in *. set (Rs := Rsun) in *. set (y := secyer) in *. set (c := clight) in *. clearbody G Ms Rs y c.
  set (i := raw "inertia") in *. set (m := raw "mass") in *. set (r := pow10 (raw "log_R")) in *. clearbody i m r.
  assert (WP : 0 < omega / y) by (apply Rdiv_lt_0_compat; assumption).
  assert (E1 : i / (Ms * Rs ^ 2) * (Ms * Rs ^ 2) = i) by (field; split; lra).
  assert (P3 : 0 < (r * Rs) ^ 3) by (apply pow_lt, Rmult_lt_0_compat; assumption).
  assert (Q : 0 < G * m * Ms / (r * Rs) ^ 3) by (apply Rdiv_lt_0_compat; [repeat apply Rmult_lt_0_compat; assumption|exact P3]).
  assert (SQ := sqrt_lt_R0 _ Q).
  assert (JP : 0 < omega / y * i) by (apply Rmult_lt_0_compat; assumption).
  assert (FP : 0 < omega / y / sqrt (G * m * Ms / (r * Rs) ^ 3)) by (apply Rdiv_lt_0_compat; assumption).
  assert (MP : 0 < G * (m * Ms) ^ 2) by (apply Rmult_lt_0_compat; [assumption|apply pow_lt, Rmult_lt_0_compat; assumption]).
  assert (AP : c * (omega / y) * (i / (Ms * Rs ^ 2)) * (Ms * Rs ^ 2) / (G * (m * Ms) ^ 2) = c * (omega / y * i) / (G * (m * Ms) ^ 2)) by (field; repeat split; lra).
  rewrite E1, AP. unfold zero_negative_values, log_or_99.
  assert (AQ : 0 < c * (omega / y * i) / (G * (m * Ms) ^ 2)) by (apply Rdiv_lt_0_compat; [apply Rmult_lt_0_compat; assumption|exact MP]).
  destruct (Rlt_dec (omega / y) 0); [lra|]. destruct (Rlt_dec i 0); [lra|]. destruct (Rlt_dec (omega / y * i) 0); [lra|]. destruct (Rlt_dec 0 (omega / y * i)); [|lra].
  destruct (Rlt_dec _ 0); [lra|]. destruct (Rlt_dec _ 0); [lra|].
  rewrite pow10_log10 by exact JP. split; [field; lra|]. split; [reflexivity|]. split; [ring|]. split; [field; repeat split; lra|]. split; [exact FP|].
  replace (omega / y / (omega / y / sqrt (G * m * Ms / (r * Rs) ^ 3))) with (sqrt (G * m * Ms / (r * Rs) ^ 3)) by (field; repeat split; lra).
  rewrite pow2_sqrt by lra. field. lra.
Qed.
(** A star that does not turn, or would turn backwards, gets no spin, and -99 for the logarithm. *)
Theorem C103_no_spin : forall raw omega, omega <= 0 -> 0 < raw "inertia" -> 0 < raw "mass" ->
  star_property raw omega "surf_avg_omega" = Num 0 /\ star_property raw omega "spin" = Num 0 /\ star_property raw omega "log_total_angular_momentum" = Num (-99) /\
  star_property raw omega "surf_avg_omega_div_omega_crit" = Num 0.
Proof.
  intros raw omega W I M.
  assert (Z : forall x, x <= 0 -> zero_negative_values x = 0) by (intros x X; unfold zero_negative_values; destruct (Rlt_dec x 0); lra).
  assert (W' : omega / secyer <= 0).
  { assert (Y := year). unfold Rdiv. assert (0 < / secyer) by (apply Rinv_0_lt_compat; exact Y). set (y := / secyer) in *. clearbody y. nra. }
  assert (NP : forall x k, x <= 0 -> 0 <= k -> x * k <= 0) by (intros; nra).
  destruct constants_pos as (_ & CG & CM & CR & _).
  assert (B : 0 < Msun * Rsun ^ 2) by (apply Rmult_lt_0_compat; [exact CM|apply pow_lt; exact CR]).
  assert (IC : 0 < column raw "inertia") by (apply Rdiv_lt_0_compat; assumption).
  repeat split.
  - change (Num (zero_negative_values (omega / secyer)) = Num 0). rewrite Z by exact W'. reflexivity.
  - change (Num (zero_negative_values (clight * (omega / secyer) * column raw "inertia" * (Msun * Rsun ^ 2) / (standard_cgrav * (column raw "mass" * Msun) ^ 2))) = Num 0).
    rewrite Z; [reflexivity|]. unfold Rdiv at 1. apply NP.
    + apply NP; [|lra]. apply NP; [|lra]. rewrite Rmult_comm. apply NP; [exact W'|]. unfold clight. lra.
    + left. apply Rinv_0_lt_compat. apply Rmult_lt_0_compat; [exact CG|]. apply pow_lt. apply Rmult_lt_0_compat; [exact M|exact CM].
  - change (Num (log_or_99 (zero_negative_values (omega / secyer * (column raw "inertia" * (Msun * Rsun ^ 2))))) = Num (-99)).
    rewrite Z by (apply NP; [exact W'|]; left; apply Rmult_lt_0_compat; assumption). unfold log_or_99. destruct (Rlt_dec 0 0); [lra|reflexivity].
  - change (Num (zero_negative_values (omega / secyer / sqrt (standard_cgrav * column raw "mass" * Msun / (column raw "R" * Rsun) ^ 3))) = Num 0).
    rewrite Z; [reflexivity|]. apply NP; [exact W'|]. left. apply Rinv_0_lt_compat, sqrt_lt_R0.
    change (column raw "R") with (pow10 (raw "log_R")). change (column raw "mass") with (raw "mass").
    assert (PR : 0 < pow10 (raw "log_R")) by apply Rpower_pos. set (r := pow10 (raw "log_R")) in *. clearbody r. set (m := raw "mass") in *. clearbody m.
    apply Rdiv_lt_0_compat.
    + apply Rmult_lt_0_compat; [apply Rmult_lt_0_compat; assumption|assumption].
    + apply pow_lt, Rmult_lt_0_compat; assumption.
Qed.
(** Both rates of mass loss are the logarithm of the track's, which may have either sign. *)
Theorem C103_mdot : forall raw omega key, In key ["lg_mdot"; "lg_wind_mdot"] ->
  exists x, star_property raw omega key = Num x /\ (raw "mdot" <> 0 -> pow10 x = Rabs (raw "mdot")) /\ (raw "mdot" = 0 -> x = -99).
Proof.
  intros raw omega key H. exists (log_or_99 (Rabs (raw "mdot"))). split; [destruct H as [<-|[<-|[]]]; reflexivity|]. unfold log_or_99. split.
  - intro N. assert (P := Rabs_pos_lt _ N). destruct (Rlt_dec 0 (Rabs (raw "mdot"))); [apply pow10_log10; exact P|lra].
  - intros ->. rewrite Rabs_R0. destruct (Rlt_dec 0 0); [lra|reflexivity].
Qed.
(** What the binary gets. *)
Theorem C103_binary : forall key, In key BINARYPROPERTIES -> binary_property key =
  (if mem key ["state"; "event"; "V_sys"; "mass_transfer_case"; "nearest_neighbour_distance"] then BKept
   else if String.eqb key "time" then BOrbit "time" else if String.eqb key "separation" then BOrbit "sep"
   else if String.eqb key "orbital_period" then BOrbit "porb" else if String.eqb key "eccentricity" then BOrbit "ecc"
   else if String.eqb key "rl_relative_overflow_1" then BOverflow 1 else if String.eqb key "rl_relative_overflow_2" then BOverflow 2
   else BNaN).
Proof. intros key H. unfold BINARYPROPERTIES in H. repeat (destruct H as [<-|H]; [reflexivity|]). destruct H. Qed.

(** ** C104: rows of the history *)
Lemma set_app {A} (l1 : list A) x l2 v : set_from_end (l1 ++ x :: l2) (S (length l2)) v = l1 ++ v :: l2.
Proof.
  unfold set_from_end. replace (length (l1 ++ x :: l2) - S (length l2))%nat with (length l1) by (rewrite app_length; cbn [length]; lia).
  rewrite firstn_app, firstn_all, Nat.sub_diag, app_nil_r. f_equal. f_equal.
  replace (S (length l1)) with (length (l1 ++ [x])) by (rewrite app_length; cbn; lia).
  replace (l1 ++ x :: l2) with ((l1 ++ [x]) ++ l2) by (rewrite <- app_assoc; reflexivity). rewrite skipn_app, skipn_all, Nat.sub_diag. reflexivity.
Qed.
Lemma repeat_app_one {A} (x : A) n : repeat x n ++ [x] = x :: repeat x n.
Proof. induction n; cbn; [reflexivity|f_equal; exact IHn]. Qed.
Lemma fold_rows {S} (infer : nat -> S) old n : forall j h, (j <= n)%nat ->
  fold_left (fun l k => set_from_end l k (infer (n - k)%nat)) (rev (seq 1 j)) (h ++ repeat old j) = h ++ map infer (seq (n - j) j).
Proof.
  induction j as [|j IH]; intros h L; [reflexivity|]. rewrite seq_S, rev_app_distr. cbn [rev app fold_left plus].
  change (repeat old (Datatypes.S j)) with (old :: repeat old j).
  assert (E : set_from_end (h ++ old :: repeat old j) (1 + j) (infer (n - (1 + j))%nat) = h ++ infer (n - Datatypes.S j)%nat :: repeat old j).
  { rewrite <- (repeat_length old j) at 2. apply (set_app h old (repeat old j)). }
  change (1 + j)%nat with (Datatypes.S j) in *. rewrite E.
  replace (h ++ infer (n - Datatypes.S j)%nat :: repeat old j) with ((h ++ [infer (n - Datatypes.S j)%nat]) ++ repeat old j) by (rewrite <- app_assoc; reflexivity).
  rewrite IH by lia. rewrite <- app_assoc. f_equal. cbn [app seq map]. f_equal. f_equal. f_equal. lia.
Qed.
(** With n > 1 stored times the history gets n + 1 rows, the last time twice.  Of the states the first one is that from before the step. *)
Theorem C104_rows : forall (T S : Type) (ht t : list T) (d : T) (hs : list S) (old : S) (infer : nat -> S), (1 < length t)%nat ->
  time_history_after ht t d = ht ++ t ++ [last t d] /\
  state_history_after hs old infer (length t) = hs ++ [old] ++ map infer (seq 1 (length t - 1)) ++ [infer (length t - 1)%nat] /\
  length (state_history_after hs old infer (length t)) = (length hs + length t + 1)%nat.
Proof.
  intros T S ht t d hs old infer N.
  assert (A : state_history_after hs old infer (length t) = hs ++ [old] ++ map infer (seq 1 (length t - 1)) ++ [infer (length t - 1)%nat]).
  { unfold state_history_after, extended. rewrite repeat_length. destruct (Nat.ltb_spec 1 (length t)); [|lia].
    set (n := length t) in *. destruct n as [|[|n]]; try lia. change (repeat old (Datatypes.S (Datatypes.S n))) with ([old] ++ repeat old (Datatypes.S n)).
    replace (Datatypes.S (Datatypes.S n) - 1)%nat with (Datatypes.S n) by lia.
    rewrite app_assoc, fold_rows by lia. replace (Datatypes.S (Datatypes.S n) - Datatypes.S n)%nat with 1%nat by lia. rewrite <- !app_assoc. reflexivity. }
  split; [|split; [exact A|]].
  - unfold time_history_after, extended. destruct (Nat.ltb_spec 1 (length t)); [|lia]. rewrite app_assoc. reflexivity.
  - rewrite A, !app_length, map_length, seq_length. cbn [length]. lia.
Qed.
(** With one time there is one row. *)
Theorem C104_row : forall (T S : Type) (ht : list T) (t d : T) (hs : list S) (old : S) (infer : nat -> S),
  time_history_after ht [t] d = ht ++ [t] /\ state_history_after hs old infer 1 = hs ++ [infer 0%nat].
Proof. intros. split; reflexivity. Qed.
(** So a stored state need not be that of its time. *)
Theorem C104_states_refuted : ~ (forall (hs : list string) old infer n k, (1 < n)%nat -> (k < n)%nat ->
  nth_error (state_history_after hs old infer n) (length hs + k) = Some (infer k)).
Proof. intro H. specialize (H [] "a" (fun _ => "b") 2%nat 0%nat ltac:(lia) ltac:(lia)). discriminate. Qed.
Example C104_case : state_history_after ["H-rich_Core_H_burning"] "H-rich_Core_H_burning" (fun k => nth k ["H-rich_Shell_H_burning"; "H-rich_Core_He_burning"; "H-rich_Core_C_depleted"] "") 3
  = ["H-rich_Core_H_burning"; "H-rich_Core_H_burning"; "H-rich_Core_He_burning"; "H-rich_Core_C_depleted"; "H-rich_Core_C_depleted"].
Proof. reflexivity. Qed.
Example C103_case : In "he_core_radius" STARPROPERTIES /\ In "surface_c12" STARPROPERTIES /\ exists raw : string -> R, 0 < raw "inertia" /\ 0 < raw "mass".
Proof.
  split; [apply (all_in ["he_core_radius"]); [vm_compute; reflexivity|left; reflexivity]|]. split; [apply (all_in ["surface_c12"]); [vm_compute; reflexivity|left; reflexivity]|].
  exists (fun _ => 1). split; apply Rlt_0_1.
Qed.
Print Assumptions C103_all.
Print Assumptions C103_stored.
Print Assumptions C103_units_refuted.
Print Assumptions C103_consistent.
Print Assumptions C103_no_spin.
Print Assumptions C103_mdot.
Print Assumptions C103_binary.
Print Assumptions C104_rows.
Print Assumptions C104_row.
Print Assumptions C104_states_refuted.
