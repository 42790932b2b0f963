(** The collapse of a profile (C126 to C128) *)
From Coq Require Import Reals String List Bool Arith Lra Lia Psatz.
From Verif Require Import PyBase OrbitModel InspiralModel BHModel BHProps CollapseModel.
Import ListNotations.
Open Scope string_scope.
Open Scope R_scope.
Open Scope list_scope.

(** ** Lemmas on lists *)
Lemma first_where_spec {A} (f : A -> bool) l :
  match first_where f l with
  | Some i => (exists x, nth_error l i = Some x /\ f x = true) /\ (forall j y, (j < i)%nat -> nth_error l j = Some y -> f y = false)
  | None => forall y, In y l -> f y = false
  end.
Proof.
  induction l as [|x l IH]; [intros y []|]. cbn. destruct (f x) eqn:E.
  - split; [exists x; split; [reflexivity|exact E]|]. intros j y L. lia.
  - destruct (first_where f l) as [i|]; cbn [option_map].
    + destruct IH as [I1 I2]. split; [exact I1|]. intros [|j] y L N; [cbn in N; congruence|]. apply (I2 j); [lia|exact N].
    + intros y [->|I]; [exact E|apply IH; exact I].
Qed.
Lemma diffs_len l : length (diffs l) = (length l - 1)%nat.
Proof. induction l as [|x [|y l] IH]; [reflexivity|reflexivity|]. cbn [diffs length] in *. rewrite IH. lia. Qed.
Lemma diffs_skip k : forall l, skipn k (diffs l) = diffs (skipn k l).
Proof.
  induction k as [|k IH]; intro l; [reflexivity|]. destruct l as [|x [|y l]]; [destruct k; reflexivity|destruct k; reflexivity|]. change (skipn (S k) (diffs (x :: y :: l))) with (skipn k (diffs (y :: l))). rewrite IH. reflexivity.
Qed.
Lemma sum_diffs l x d : sum (diffs (x :: l)) = last (x :: l) d - x.
Proof. revert x. induction l as [|y l IH]; intro x; [cbn; ring|]. change (diffs (x :: y :: l)) with ((y - x) :: diffs (y :: l)). cbn [sum]. rewrite IH. change (last (x :: y :: l) d) with (last (y :: l) d). ring. Qed.
Lemma skipn_cons {A} k (l : list A) x : nth_error l k = Some x -> skipn k l = x :: skipn (S k) l.
Proof. revert l. induction k as [|k IH]; intros [|y l] H; try discriminate; [cbn in H; assert (y = x) by congruence; subst; reflexivity|]. cbn in H. change (skipn (S k) (y :: l)) with (skipn k l). change (skipn (S (S k)) (y :: l)) with (skipn (S k) l). apply IH. exact H. Qed.
Lemma last_skip {A} k (l : list A) d : (k < length l)%nat -> last (skipn k l) d = last l d.
Proof. revert l. induction k as [|k IH]; intros l H; [reflexivity|]. destruct l as [|x l]; [cbn in H; lia|]. cbn [skipn]. rewrite IH by (cbn in H; lia). destruct l; [cbn in H; lia|]. reflexivity. Qed.

(** ** C126: where the star is cut *)
(** The shells given by their enclosed masses, from the centre; all fall that end below the collapsing mass, and the next one. *)
Definition cut_at (l : list R) (m : R) (n : nat) : Prop :=
  (Forall (fun x => x <= m) l /\ n = length l) \/
  (exists k x, n = S k /\ nth_error l k = Some x /\ m < x /\ forall j y, (j < k)%nat -> nth_error l j = Some y -> y <= m).
Definition increasing (l : list R) : Prop := forall i j x y, (i < j)%nat -> nth_error l i = Some x -> nth_error l j = Some y -> x < y.

Lemma Msun_pos : 0 < Msun. Proof. unfold Msun. lra. Qed.
Lemma last_rev {A} (l : list A) : match rev l with [] => l = [] | x :: _ => exists m, l = m ++ [x] end.
Proof. destruct l as [|y l] using rev_ind; [reflexivity|]. rewrite rev_app_distr. cbn. exists l. reflexivity. Qed.
Lemma mass_back x : x * Msun / Msun = x.
Proof. assert (H := Msun_pos). field. lra. Qed.

Theorem C126_cut : forall l m, increasing l -> cut_at l m (i_rem (map (fun x => x * Msun) l) m).
Proof.
  intros l m INC. unfold i_rem. assert (L := last_rev (map (fun x => x * Msun) l)). destruct (rev (map (fun x => x * Msun) l)) as [|s q].
  - destruct l; [|discriminate]. left. split; [constructor|reflexivity].
  - destruct L as (h & L). rewrite map_length. unfold le. destruct (Rle_dec (s / Msun) m) as [C|C].
    + left. split; [|reflexivity]. destruct l as [|y l'] using rev_ind; [destruct h; discriminate|]. clear IHl'. rewrite map_app in L. apply app_inj_tail in L. destruct L as [_ L]. subst s. rewrite mass_back in C.
      apply Forall_forall. intros x I. apply In_nth_error in I. destruct I as (i & N). assert (B : (i < length (l' ++ [y]))%nat) by (apply nth_error_Some; congruence). rewrite app_length in B. cbn in B.
      destruct (Nat.eq_dec i (length l')) as [->|NE]; [rewrite nth_error_app2, Nat.sub_diag in N by lia; cbn in N; assert (y = x) by congruence; subst; exact C|].
      assert (x < y); [|lra]. apply (INC i (length l')); [lia|exact N|]. rewrite nth_error_app2, Nat.sub_diag by lia. reflexivity.
    + right. unfold argmax. assert (W := first_where_spec (fun x => lt m (x / Msun)) (map (fun x => x * Msun) l)). destruct (first_where _ _) as [i|].
      * destruct W as [(x & N & F) B]. rewrite nth_error_map in N. destruct (nth_error l i) as [z|] eqn:NZ; [|discriminate]. cbn in N. assert (x = z * Msun) by congruence. subst x. rewrite mass_back in F. unfold lt in F. destruct (Rlt_dec m z) as [Z|Z]; [|discriminate].
        exists i, z. split; [reflexivity|]. split; [exact NZ|]. split; [exact Z|]. intros j y LJ NJ. assert (K := B j (y * Msun) LJ). rewrite nth_error_map, NJ in K. cbn in K. specialize (K eq_refl). rewrite mass_back in K. unfold lt in K. destruct (Rlt_dec m y); [discriminate|lra].
      * exfalso. assert (K := W s). unfold lt in K. rewrite L in K. destruct (Rlt_dec m (s / Msun)); [|lra]. assert (In s (h ++ [s])) by (apply in_or_app; right; left; reflexivity). specialize (K H). discriminate.
Qed.
Print Assumptions C126_cut.
Example C126_case : cut_at [1; 2; 3; 4] 2.5 3 /\ ~ cut_at [1; 2; 3; 4] 2.5 2.
Proof.
  split.
  - right. exists 2%nat, 3. split; [reflexivity|]. split; [reflexivity|]. split; [lra|]. intros [|[|j]] y L N; cbn in N; try lia; [assert (y = 1) by congruence|assert (y = 2) by congruence]; lra.
  - intros [[H L]|(k & x & E & N & L & _)]; [discriminate|]. assert (k = 1%nat) by lia. subst k. cbn in N. assert (x = 2) by congruence. lra.
Qed.

(** The centre that collapses first ends at the shell nearest to the wanted mass. *)
Lemma nearest_from_spec v l : forall best at_ i (full : list R) (pre : list R),
  full = pre ++ l -> i = length pre -> (exists x, nth_error full at_ = Some x /\ Rabs (x - v) = best) -> (forall j y, nth_error pre j = Some y -> best <= Rabs (y - v)) -> (at_ < i)%nat ->
  exists x, nth_error full (nearest_from v best at_ i l) = Some x /\ (forall j y, nth_error full j = Some y -> Rabs (x - v) <= Rabs (y - v)).
Proof.
  induction l as [|z l IH]; intros best at_ i full pre F I (x & N & B) ALL LT.
  - cbn. exists x. split; [exact N|]. rewrite app_nil_r in F. subst full. rewrite B. exact ALL.
  - cbn. assert (NZ : nth_error full i = Some z) by (subst full i; rewrite nth_error_app2, Nat.sub_diag by lia; reflexivity).
    assert (PRE : forall j y, nth_error (pre ++ [z]) j = Some y -> (nth_error pre j = Some y \/ y = z)).
    { intros j y H. destruct (Nat.lt_ge_cases j (length pre)) as [L|L]; [rewrite nth_error_app1 in H by lia; auto|]. right. rewrite nth_error_app2 in H by lia. destruct (j - length pre)%nat as [|[|q]]; cbn in H; congruence. }
    destruct (Rlt_dec (Rabs (z - v)) best) as [C|C].
    + apply (IH _ _ _ full (pre ++ [z])); [rewrite <- app_assoc; exact F|rewrite app_length; cbn; lia|exists z; split; [exact NZ|reflexivity]| |lia].
      intros j y H. destruct (PRE j y H) as [H' | ->]; [assert (K := ALL j y H'); lra|lra].
    + apply (IH _ _ _ full (pre ++ [z])); [rewrite <- app_assoc; exact F|rewrite app_length; cbn; lia|exists x; split; [exact N|exact B]| |lia].
      intros j y H. destruct (PRE j y H) as [H' | ->]; [apply (ALL j y H')|lra].
Qed.
Theorem C126_nearest : forall l v, l <> [] -> exists k x, find_index_nearest_neighbour l v = Ok k /\ nth_error l k = Some x /\ forall y, In y l -> Rabs (x - v) <= Rabs (y - v).
Proof.
  intros [|z l] v NE; [congruence|]. cbn [find_index_nearest_neighbour].
  destruct (nearest_from_spec v l (Rabs (z - v)) 0 1 (z :: l) [z] eq_refl eq_refl) as (x & N & B); [exists z; split; reflexivity| |lia|].
  - intros [|[|j]] y H; cbn in H; try discriminate. assert (y = z) by congruence. subst. lra.
  - eexists. exists x. split; [reflexivity|]. split; [exact N|]. intros y I. apply In_nth_error in I. destruct I as (j & J). exact (B j y J).
Qed.
Print Assumptions C126_nearest.

(** ** C127: the shells *)
(** What one shell does, without angles: [x] is the part of the momentum limit in that of the shell, at most 1; [c] the part of the mass that forms a disk. *)
Definition direct_part (j_shell j_isco : R) : R := if Rlt_dec j_shell j_isco then 1 else j_isco / j_shell.
Definition disk_part (j_shell j_isco : R) : R := sqrt (1 - direct_part j_shell j_isco).

Lemma half_sin t : sin (t / 2) ^ 4 = ((1 - cos t) / 2) ^ 2.
Proof. replace (cos t) with (1 - 2 * sin (t / 2) * sin (t / 2)) by (rewrite <- cos_2a_sin; f_equal; field). field. Qed.
Lemma cos_asin_sqrt x : 0 <= x <= 1 -> cos (asin (sqrt x)) = sqrt (1 - x).
Proof.
  intros [X0 X1]. assert (S0 := sqrt_pos x). assert (SS : sqrt x * sqrt x = x) by (apply sqrt_sqrt; exact X0). assert (S1 : sqrt x <= 1) by (rewrite <- sqrt_1; apply sqrt_le_1_alt; exact X1). rewrite cos_asin by lra. f_equal. unfold Rsqr. rewrite SS. reflexivity.
Qed.
Lemma direct_range j i : 0 < i -> 0 < direct_part j i <= 1.
Proof.
  intro I. unfold direct_part. destruct (Rlt_dec j i); [lra|]. assert (0 < j) by lra. split; [apply Rdiv_lt_0_compat; assumption|]. apply Rmult_le_reg_r with j; [assumption|]. unfold Rdiv. rewrite Rmult_assoc, Rinv_l by lra. lra.
Qed.
Lemma disk_range j i : 0 < i -> 0 <= disk_part j i < 1.
Proof.
  intro I. assert (D := direct_range j i I). unfold disk_part. split; [apply sqrt_pos|]. apply Rlt_le_trans with (sqrt 1); [apply sqrt_lt_1_alt; lra|rewrite sqrt_1; lra].
Qed.

Lemma triple (x y z x' y' z' : R) : x = x' -> y = y' -> z = z' -> (x, y, z) = (x', y', z').
Proof. congruence. Qed.
Theorem C127_shell : forall x s, a s <> 1 -> let j_isco := j_cgs (compute_isco_properties (a s) (M s)) in let e := eff (compute_isco_properties (a s) (M s)) in
  let j := om x * r x ^ 2 in let c := disk_part j j_isco in
  let J' := J s + j_isco * (c * dm x) + 4 * PI * (om x * rho x) * ((1 - c) ^ 2 * (2 + c) / 3) * ((r x ^ 5 - (r x - dr x) ^ 5) / 5) in
  let M' := M s + (1 - c) * dm x + c * dm x * e in
  let a' := J' * clight / (standard_cgrav * M' ^ 2) in
  0 < j_isco ->
  collapse x s = if Rlt_dec 1 a' then Raise ValueError
                 else Ok (State M' a' J' (disk s + c * dm x * e) (radiated s + c * dm x * (1 - e)) (jet s + c * dm x * clight ^ 2 * a' ^ 2)).
Proof.
  intros x s NE j_isco e j c J' M' a' POS. unfold collapse. destruct (Req_EM_T (a s) 1) as [E|_]; [contradiction|].
  change (compute_isco_properties (a s) (M s)) with (r_cm (compute_isco_properties (a s) (M s)), j_isco, e). cbn iota beta. fold j.
  assert (F : (if Rlt_dec j j_isco then (J s + 4 * PI * (om x * rho x) * (2 / 3) * (r x ^ 5 / 5 - (r x - dr x) ^ 5 / 5), M s + dm x, 0)
     else (J s + j_isco * (cos (asin (sqrt (j_isco / j))) * dm x) + 4 * PI * (om x * rho x) * (4 / 3 * (2 + cos (asin (sqrt (j_isco / j)))) * sin (asin (sqrt (j_isco / j)) / 2) ^ 4) * (r x ^ 5 / 5 - (r x - dr x) ^ 5 / 5),
           M s + cos (asin (sqrt (j_isco / j))) * dm x * e + (1 - cos (asin (sqrt (j_isco / j)))) * dm x, cos (asin (sqrt (j_isco / j))) * dm x)) = (J', M', c * dm x)).
  { assert (D := direct_range j j_isco POS). unfold J', M', c, disk_part. unfold direct_part in *. destruct (Rlt_dec j j_isco) as [L|L].
    - replace (1 - 1) with 0 by ring. rewrite sqrt_0. apply triple; field.
    - rewrite cos_asin_sqrt by lra. rewrite half_sin, cos_asin_sqrt by lra. apply triple; field. }
  rewrite F. fold a'. destruct (Rlt_dec 1 a'); [reflexivity|]. f_equal. unfold BZ_jet_power. f_equal. ring.
Qed.
Print Assumptions C127_shell.

(** ** The invariant *)
Definition sound (x : shell) : Prop := 0 <= om x /\ 0 <= rho x /\ 0 <= dm x /\ 0 <= dr x <= r x.
Lemma j_pos a m : 0 <= a < 1 -> 0 < m -> 0 < j_cgs (compute_isco_properties a m).
Proof.
  intros A P. destruct (C125_range a m A P) as [[L _] _]. assert (T : 0 < sqrt 3) by (apply sqrt_lt_R0; lra). assert (K : 0 < standard_cgrav * m / clight) by (apply Rdiv_lt_0_compat; [apply Rmult_lt_0_compat; [unfold standard_cgrav; lra|exact P]|unfold clight; lra]).
  assert (0 < 2 / sqrt 3) by (apply Rdiv_lt_0_compat; lra). assert (0 < 2 / sqrt 3 * (standard_cgrav * m / clight)) by (apply Rmult_lt_0_compat; assumption). lra.
Qed.
Lemma eff_bounds a m : 0 <= a < 1 -> 0 < m -> 1 / sqrt 3 <= eff (compute_isco_properties a m) < 1.
Proof.
  intros A P. destruct (C125_range a m A P) as (_ & _ & L & U). split; [exact L|]. apply Rle_lt_trans with (1 := U). rewrite <- sqrt_1. apply sqrt_lt_1_alt. lra.
Qed.
Lemma spin_nonneg J M : 0 <= J -> 0 < M -> 0 <= J * clight / (standard_cgrav * M ^ 2).
Proof. intros HJ HM. unfold clight, standard_cgrav. apply Rmult_le_pos; [nra|]. left. apply Rinv_0_lt_compat. apply Rmult_lt_0_compat; [lra|]. apply pow_lt. exact HM. Qed.
Lemma pow5_le x y : 0 <= x <= y -> x ^ 5 <= y ^ 5.
Proof. intro H. apply pow_incr. exact H. Qed.

Definition good (s : state) : Prop := 0 < M s /\ 0 <= a s <= 1 /\ 0 <= J s.
Lemma collapse_step x s s' : sound x -> good s -> collapse x s = Ok s' ->
  good s' /\ M s' + radiated s' = M s + radiated s + dm x /\ M s <= M s' /\ disk s <= disk s' /\ radiated s <= radiated s' /\
  radiated s' - radiated s <= (sqrt 3 - 1) * (disk s' - disk s) /\
  0 <= jet s' - jet s <= clight ^ 2 * ((disk s' - disk s) + (radiated s' - radiated s)) /\ disk s' - disk s + (radiated s' - radiated s) <= dm x /\ J s <= J s'.
Proof.
  intros (O & H & D & W) (MP & A & JP) E. destruct (Req_dec (a s) 1) as [A1|A1]; [unfold collapse in E; destruct (Req_EM_T (a s) 1); [discriminate E|contradiction]|].
  assert (A' : 0 <= a s < 1) by lra. assert (IP := j_pos (a s) (M s) A' MP). assert (EB := eff_bounds (a s) (M s) A' MP). rewrite (C127_shell x s A1 IP) in E. cbv zeta in E.
  set (j := om x * r x ^ 2) in *. set (ji := j_cgs (compute_isco_properties (a s) (M s))) in *. set (e := eff (compute_isco_properties (a s) (M s))) in *. assert (CR := disk_range j ji IP). set (c := disk_part j ji) in *.
  assert (T0 : 0 < sqrt 3) by (apply sqrt_lt_R0; lra). assert (T3 : sqrt 3 * sqrt 3 = 3) by (apply sqrt_sqrt; lra). assert (E0 : 0 < e) by (apply Rlt_le_trans with (1 / sqrt 3); [apply Rdiv_lt_0_compat; lra|apply EB]).
  assert (P1 : 0 <= c * dm x) by (apply Rmult_le_pos; lra). assert (P2 : 0 <= (1 - c) * dm x) by (apply Rmult_le_pos; lra). assert (P3 : 0 <= c * dm x * e) by (apply Rmult_le_pos; lra). assert (P4 : 0 <= c * dm x * (1 - e)) by (apply Rmult_le_pos; lra).
  assert (P5 : 0 <= ji * (c * dm x)) by (apply Rmult_le_pos; lra).
  assert (P6 : 0 <= 4 * PI * (om x * rho x) * ((1 - c) ^ 2 * (2 + c) / 3) * ((r x ^ 5 - (r x - dr x) ^ 5) / 5)).
  { assert (PP := PI_RGT_0). assert (Q := pow5_le (r x - dr x) (r x) ltac:(lra)). apply Rmult_le_pos; [|lra]. apply Rmult_le_pos; [apply Rmult_le_pos; [lra|apply Rmult_le_pos; assumption]|]. apply Rmult_le_pos; [|lra]. apply Rmult_le_pos; [apply pow2_ge_0|lra]. }
  set (J' := J s + ji * (c * dm x) + 4 * PI * (om x * rho x) * ((1 - c) ^ 2 * (2 + c) / 3) * ((r x ^ 5 - (r x - dr x) ^ 5) / 5)) in *. set (M' := M s + (1 - c) * dm x + c * dm x * e) in *. set (a' := J' * clight / (standard_cgrav * M' ^ 2)) in *.
  assert (JP' : 0 <= J') by (unfold J'; lra). assert (MP' : 0 < M') by (unfold M'; lra). assert (AP' : 0 <= a') by (apply spin_nonneg; assumption).
  destruct (Rlt_dec 1 a') as [|AL]; [discriminate E|].
  assert (S' : s' = State M' a' J' (disk s + c * dm x * e) (radiated s + c * dm x * (1 - e)) (jet s + c * dm x * clight ^ 2 * a' ^ 2)) by congruence. subst s'. unfold good. cbn [M a J disk radiated jet].
  split; [split; [exact MP'|split; [lra|exact JP']]|]. split; [unfold M'; ring|]. split; [unfold M'; lra|]. split; [lra|]. split; [lra|]. split.
  { replace (radiated s + c * dm x * (1 - e) - radiated s) with (c * dm x * (1 - e)) by ring. replace (disk s + c * dm x * e - disk s) with (c * dm x * e) by ring.
    replace ((sqrt 3 - 1) * (c * dm x * e)) with (c * dm x * ((sqrt 3 - 1) * e)) by ring. apply Rmult_le_compat_l; [exact P1|]. assert (1 <= sqrt 3 * e); [|lra].
    destruct EB as [EB _]. replace 1 with (sqrt 3 * (1 / sqrt 3)) by (field; lra). apply Rmult_le_compat_l; lra. }
  split.
  { replace (jet s + c * dm x * clight ^ 2 * a' ^ 2 - jet s) with (clight ^ 2 * (c * dm x * a' ^ 2)) by ring. replace (disk s + c * dm x * e - disk s + (radiated s + c * dm x * (1 - e) - radiated s)) with (c * dm x) by ring.
    assert (CL : 0 <= clight ^ 2) by apply pow2_ge_0. assert (A2 : 0 <= a' ^ 2 <= 1) by (split; [apply pow2_ge_0|nra]). split; [apply Rmult_le_pos; [exact CL|apply Rmult_le_pos; lra]|]. apply Rmult_le_compat_l; [exact CL|]. nra. }
  split; [replace (disk s + c * dm x * e - disk s + (radiated s + c * dm x * (1 - e) - radiated s)) with (c * dm x) by ring; nra|unfold J'; lra].
Qed.
Definition total (l : list shell) : R := sum (map dm l).
Lemma collapse_all_inv l : forall s s', Forall sound l -> good s -> collapse_all l s = Ok s' ->
  good s' /\ M s' + radiated s' = M s + radiated s + total l /\ M s <= M s' /\ disk s <= disk s' /\ radiated s <= radiated s' /\
  radiated s' - radiated s <= (sqrt 3 - 1) * (disk s' - disk s) /\
  0 <= jet s' - jet s <= clight ^ 2 * ((disk s' - disk s) + (radiated s' - radiated s)) /\ disk s' - disk s + (radiated s' - radiated s) <= total l /\ J s <= J s'.
Proof.
  induction l as [|x l IH]; intros s s' F G E.
  - cbn in E. assert (s' = s) by congruence. subst s'. unfold total. cbn. assert (CL : 0 <= clight ^ 2) by apply pow2_ge_0. repeat split; try apply G; lra.
  - cbn in E. destruct (collapse x s) as [s1|] eqn:E1; [|discriminate E]. cbn in E. inversion F as [|? ? F1 F2]; subst. destruct (collapse_step x s s1 F1 G E1) as (G1 & B1 & B2 & B3 & B4 & B5 & B6 & B7 & B8).
    destruct (IH s1 s' F2 G1 E) as (G2 & D1 & D2 & D3 & D4 & D5 & D6 & D7 & D8). unfold total in *. cbn [map sum]. split; [exact G2|]. repeat split; try lra.
Qed.

(** ** The whole collapse *)
Definition enclosed (p : profile) : list R := rev (mass p).
Definition well_formed (p : profile) : Prop :=
  mass p <> [] /\ length (radius p) = length (mass p) /\ length (logRho p) = length (mass p) /\ length (omega p) = length (mass p) /\
  increasing (enclosed p) /\ increasing (rev (radius p)) /\ (forall x, In x (radius p) -> 0 <= x) /\ (forall x, In x (omega p) -> 0 <= x).

Lemma zip5_dm : forall o r h x y, length o = length y -> length r = length y -> length h = length y -> length x = length y -> map dm (zip5 o r h x y) = y /\ length (zip5 o r h x y) = length y.
Proof. induction o as [|o os IH]; intros r h x y; destruct r, h, x, y; cbn; intros; try discriminate; [split; reflexivity|]. destruct (IH r0 h x y) as [-> ->]; try lia. split; reflexivity. Qed.
Lemma zip5_in : forall o r h x y s, In s (zip5 o r h x y) -> exists i, nth_error o i = Some (om s) /\ nth_error r i = Some (CollapseModel.r s) /\ nth_error h i = Some (rho s) /\ nth_error x i = Some (dr s) /\ nth_error y i = Some (dm s).
Proof.
  induction o as [|o os IH]; intros r h x y s; destruct r, h, x, y; cbn; intros I; try contradiction. destruct I as [<-|I]; [exists 0%nat; cbn; repeat split; reflexivity|]. destruct (IH _ _ _ _ _ I) as (i & H). exists (S i). exact H.
Qed.
Lemma diffs_nth l : forall i d, nth_error (diffs l) i = Some d -> exists x y, nth_error l i = Some x /\ nth_error l (S i) = Some y /\ d = y - x.
Proof.
  induction l as [|x [|y l] IH]; intros i d H; [destruct i; discriminate|destruct i; discriminate|]. destruct i as [|i]; [cbn in H; exists x, y; repeat split; congruence|]. change (nth_error (diffs (y :: l)) i = Some d) in H. destruct (IH i d H) as (u & v & U & V & E). exists u, v. repeat split; assumption.
Qed.
Lemma nth_error_skip {A} k (l : list A) i : nth_error (skipn k l) i = nth_error l (k + i).
Proof. revert l. induction k as [|k IH]; intro l; [reflexivity|]. destruct l; [destruct i; reflexivity|]. cbn. apply IH. Qed.
Lemma nth_error_first {A} n (l : list A) i x : nth_error (firstn n l) i = Some x -> nth_error l i = Some x.
Proof. revert l i. induction n as [|n IH]; intros l i H; [destruct i; discriminate|]. destruct l; [destruct i; discriminate|]. destruct i; [exact H|]. cbn in *. apply IH. exact H. Qed.
Lemma increasing_scaled l k : 0 < k -> increasing l -> increasing (map (fun x => x * k) l).
Proof.
  intros K I i j x y L N1 N2. rewrite nth_error_map in N1, N2. destruct (nth_error l i) as [u|] eqn:U; [|discriminate]. destruct (nth_error l j) as [v|] eqn:V; [|discriminate]. cbn in *. assert (x = u * k) by congruence. assert (y = v * k) by congruence. subst. assert (H := I i j u v L U V). nra.
Qed.

(** The initial hole and the shells, as sets of masses. *)
Lemma initial_spec simpson p mc central nu : well_formed p ->
  exists n k m_k i, cut_at (enclosed p) mc n /\ nth_error (firstn n (enclosed p)) k = Some m_k /\ (forall y, In y (firstn n (enclosed p)) -> Rabs (m_k - central) <= Rabs (y - central)) /\
    get_initial_BH_properties simpson p mc central nu = Ok i /\ M0 i = (m_k - nu) * Msun /\ Forall sound (falling i) /\
    total (falling i) = (last (firstn n (enclosed p)) 0 - m_k) * Msun /\ length (falling i) = (n - S k)%nat /\ (n <= length (enclosed p))%nat /\
    a0 i = J0 i * clight / (standard_cgrav * M0 i ^ 2) /\
    (forall x, In x (falling i) -> In (om x) (omega p)).
Proof.
  intros (NE & LR & LH & LO & INC & INR & PR & PO). unfold get_initial_BH_properties. fold (enclosed p). rewrite map_length. assert (LE : length (enclosed p) = length (mass p)) by apply rev_length.
  assert (NZ : length (mass p) <> 0%nat) by (destruct (mass p); [congruence|discriminate]). rewrite LE. destruct (Nat.eqb_spec (length (mass p)) 0) as [Z|_]; [contradiction|].
  set (n := i_rem (map (fun m => m * Msun) (enclosed p)) mc). assert (CUT : cut_at (enclosed p) mc n) by (apply C126_cut; exact INC).
  assert (NB : (0 < n <= length (enclosed p))%nat).
  { destruct CUT as [[_ ->]|(k & x & -> & N & _)]; [lia|]. assert (k < length (enclosed p))%nat by (apply nth_error_Some; congruence). lia. }
  rewrite firstn_map.
  assert (NE' : map (fun m => m * Msun) (firstn n (enclosed p)) <> []). { intro Z. apply map_eq_nil in Z. apply (f_equal (@length R)) in Z. rewrite firstn_length in Z. cbn in Z. lia. }
  destruct (C126_nearest _ (central * Msun) NE') as (k & x & E & N & B). rewrite E. cbn [rbind]. rewrite nth_error_map in N. destruct (nth_error (firstn n (enclosed p)) k) as [m_k|] eqn:NK; [|discriminate]. cbn in N. assert (X : x = m_k * Msun) by congruence. subst x.
  assert (KN : (k < n)%nat). { assert (K : (k < length (firstn n (enclosed p)))%nat) by (apply nth_error_Some; congruence). rewrite firstn_length in K. lia. }
  exists n, k, m_k. eexists. split; [exact CUT|]. split; [exact NK|]. split.
  { intros y I. assert (K := B (y * Msun) (in_map (fun m => m * Msun) _ y I)). replace (m_k * Msun - central * Msun) with ((m_k - central) * Msun) in K by ring. replace (y * Msun - central * Msun) with ((y - central) * Msun) in K by ring. rewrite !Rabs_mult in K. assert (MP := Msun_pos). rewrite (Rabs_right Msun) in K by lra. nra. }
  split; [reflexivity|]. cbn [M0 a0 J0 falling].
  assert (NTH : nth k (map (fun m => m * Msun) (firstn n (enclosed p))) 0 = m_k * Msun). { apply nth_error_nth. rewrite nth_error_map, NK. reflexivity. }
  rewrite NTH. split; [ring|].
  set (enc := map (fun m => m * Msun) (firstn n (enclosed p))) in *. set (rad := firstn n (map (fun x => x * Rsun) (rev (radius p)))). set (den := firstn n (map (fun x => Rpower 10 x) (rev (logRho p)))). set (fre := firstn n (rev (omega p))).
  assert (L1 : length enc = n) by (unfold enc; rewrite map_length, firstn_length; lia). assert (L2 : length rad = n) by (unfold rad; rewrite firstn_length, map_length, rev_length; lia).
  assert (L3 : length den = n) by (unfold den; rewrite firstn_length, map_length, rev_length; lia). assert (L4 : length fre = n) by (unfold fre; rewrite firstn_length, rev_length; lia).
  change (match n with O => [] | S _ => skipn k _ end) with (skipn k (diffs enc)).
  assert (ZL : map dm (zip5 (skipn (S k) fre) (skipn (S k) rad) (skipn (S k) den) (skipn k (diffs rad)) (skipn k (diffs enc))) = skipn k (diffs enc) /\
    length (zip5 (skipn (S k) fre) (skipn (S k) rad) (skipn (S k) den) (skipn k (diffs rad)) (skipn k (diffs enc))) = length (skipn k (diffs enc))).
  { apply zip5_dm; rewrite !skipn_length, ?diffs_len; lia. }
  destruct ZL as [ZD ZL]. assert (RP : 0 < Rsun) by (unfold Rsun; lra). assert (MP := Msun_pos).
  assert (IE : increasing (map (fun m => m * Msun) (enclosed p))) by (apply increasing_scaled; assumption). assert (IR : increasing (map (fun x => x * Rsun) (rev (radius p)))) by (apply increasing_scaled; assumption).
  split.
  { apply Forall_forall. intros s I. destruct (zip5_in _ _ _ _ _ _ I) as (i & I1 & I2 & I3 & I4 & I5). rewrite nth_error_skip in I1, I2, I3, I4, I5.
    apply nth_error_first in I1. apply nth_error_first in I3. destruct (diffs_nth _ _ _ I4) as (u & v & U & V & D1). destruct (diffs_nth _ _ _ I5) as (u' & v' & U' & V' & D2).
    replace (S (k + i)) with (S k + i)%nat in V by lia. assert (v = CollapseModel.r s) by congruence. subst v. unfold rad in U, I2. apply nth_error_first in U. apply nth_error_first in I2.
    assert (U'' : nth_error (map (fun m => m * Msun) (enclosed p)) (k + i) = Some u') by (unfold enc in U'; rewrite <- firstn_map in U'; apply nth_error_first in U'; exact U').
    assert (V'' : nth_error (map (fun m => m * Msun) (enclosed p)) (S (k + i)) = Some v') by (unfold enc in V'; rewrite <- firstn_map in V'; apply nth_error_first in V'; exact V').
    assert (Q1 := IE _ _ _ _ (Nat.lt_succ_diag_r (k + i)) U'' V''). assert (Q2 := IR (k + i)%nat (S k + i)%nat u (CollapseModel.r s) ltac:(lia) U I2).
    assert (UP : 0 <= u). { apply nth_error_In in U. apply in_map_iff in U. destruct U as (z & <- & Z). apply in_rev in Z. assert (H := PR z Z). nra. }
    split; [apply PO; apply in_rev; apply nth_error_In with (1 := I1)|]. split; [|split; [lra|lra]]. apply nth_error_In in I3. apply in_map_iff in I3. destruct I3 as (z & <- & _). left. apply exp_pos. }
  split.
  { unfold total. rewrite ZD. rewrite diffs_skip. assert (NE2 : nth_error enc k = Some (m_k * Msun)) by (unfold enc; rewrite nth_error_map, NK; reflexivity). rewrite (skipn_cons k enc _ NE2). rewrite (sum_diffs _ _ 0). rewrite <- (skipn_cons k enc _ NE2). rewrite last_skip by lia.
    assert (LST : last enc 0 = last (firstn n (enclosed p)) 0 * Msun). { unfold enc. clear. induction (firstn n (enclosed p)) as [|x [|y l] IH]; [cbn; ring|reflexivity|]. exact IH. }
    rewrite LST. ring. }
  split; [rewrite ZL, skipn_length, diffs_len; lia|]. split; [lia|]. split; [reflexivity|].
  intros s I. destruct (zip5_in _ _ _ _ _ _ I) as (i & I1 & _). rewrite nth_error_skip in I1. apply nth_error_first in I1. apply in_rev. apply nth_error_In with (1 := I1).
Qed.

(** Mass, spin and disk of the remnant.  [n] shells collapse, up to the first that ends above the collapsing mass; the hole begins with the centre up to the shell [k]
    nearest to the wanted mass, less the neutrinos. *)
Theorem C127_remnant : forall simpson p mc central nu max rem, well_formed p -> do_core_collapse_BH simpson (Some p) mc central (Some nu) max = Ok rem ->
  (forall y, In y (enclosed p) -> nu < y) ->
  (forall i, get_initial_BH_properties simpson p mc central nu = Ok i -> 0 <= J0 i) ->
  exists n k m_k, cut_at (enclosed p) mc n /\ nth_error (firstn n (enclosed p)) k = Some m_k /\ (forall y, In y (firstn n (enclosed p)) -> Rabs (m_k - central) <= Rabs (y - central)) /\
    0 <= nu <= max /\
    if (S k =? n)%nat then M_BH_total rem = m_k - nu /\ m_disk_accreted rem = None /\ m_disk_radiated rem = None
    else exists d w s jet, m_disk_accreted rem = Some d /\ m_disk_radiated rem = Some w /\ a_BH_total rem = Some s /\ BZ_jet_power_total rem = Some jet /\
      M_BH_total rem + w = last (firstn n (enclosed p)) 0 - nu /\ m_k - nu <= M_BH_total rem /\ 0 <= s <= 1 /\ 0 <= d /\ 0 <= w <= (sqrt 3 - 1) * d /\
      d + w <= last (firstn n (enclosed p)) 0 - m_k /\ 0 <= jet <= clight ^ 2 * ((d + w) * Msun).
Proof.
  intros simpson p mc central nu max rem WF E POS JP. destruct (initial_spec simpson p mc central nu WF) as (n & k & m_k & i & CUT & NK & NEAR & G & EM & SND & TOT & LEN & NL & A0 & _).
  exists n, k, m_k. split; [exact CUT|]. split; [exact NK|]. split; [exact NEAR|]. unfold do_core_collapse_BH in E. destruct (Rlt_dec nu 0); [discriminate E|]. destruct (Rlt_dec max nu); [discriminate E|]. split; [lra|].
  rewrite G in E. cbn [rbind] in E. assert (MP := Msun_pos). specialize (JP i G).
  assert (KN : (S k <= n)%nat). { assert (K : (k < length (firstn n (enclosed p)))%nat) by (apply nth_error_Some; congruence). rewrite firstn_length in K. lia. }
  assert (MK : nu < m_k) by (apply POS; apply nth_error_first in NK; apply nth_error_In with (1 := NK)). assert (M0P : 0 < M0 i) by (rewrite EM; nra).
  destruct (Nat.eqb_spec (S k) n) as [EQ|NE].
  - assert (F : falling i = []) by (destruct (falling i); [reflexivity|cbn in LEN; lia]). rewrite F in E. apply (f_equal (fun x => match x with Ok z => z | Raise _ => rem end)) in E. cbn in E. subst rem. cbn. split; [rewrite EM; field; lra|]. split; reflexivity.
  - destruct (falling i) as [|x l] eqn:F; [cbn in LEN; lia|]. rewrite <- F in *.
    set (a1 := if (if Rlt_dec 0.99 (a0 i) then true else false) then 0.99 else a0 i) in E. set (J1 := if (if Rlt_dec 0.99 (a0 i) then true else false) then a1 * standard_cgrav * M0 i ^ 2 / clight else J0 i) in E. cbv zeta in E.
    assert (GOOD : good (State (M0 i) a1 J1 0 0 0)).
    { assert (AN : 0 <= a0 i) by (rewrite A0; apply spin_nonneg; assumption). split; [exact M0P|]. cbn. unfold J1, a1. destruct (Rlt_dec 0.99 (a0 i)); split; try lra. unfold standard_cgrav, clight. apply Rmult_le_pos; [|left; apply Rinv_0_lt_compat; lra]. apply Rmult_le_pos; [lra|apply pow2_ge_0]. }
    destruct (collapse_all (falling i) (State (M0 i) a1 J1 0 0 0)) as [s|] eqn:C; [|discriminate E]. cbn [rbind] in E. apply (f_equal (fun x => match x with Ok z => z | Raise _ => rem end)) in E. cbn beta iota in E. subst rem.
    destruct (collapse_all_inv _ _ _ SND GOOD C) as ((_ & (S0 & S1) & _) & B1 & B2 & B3 & B4 & B5 & B6 & B7 & _). cbn [M disk radiated jet] in *. rewrite TOT in *. rewrite EM in *.
    exists (disk s / Msun), (radiated s / Msun), (a s), (jet s). cbn [m_disk_accreted m_disk_radiated a_BH_total BZ_jet_power_total M_BH_total]. do 4 (split; [reflexivity|]).
    assert (DIV : forall z y, z <= y * Msun -> z / Msun <= y) by (intros z y Z; apply Rmult_le_reg_r with Msun; [exact MP|]; unfold Rdiv; rewrite Rmult_assoc, Rinv_l by lra; lra).
    assert (VID : forall z y, y * Msun <= z -> y <= z / Msun) by (intros z y Z; apply Rmult_le_reg_r with Msun; [exact MP|]; unfold Rdiv; rewrite Rmult_assoc, Rinv_l by lra; lra).
    split; [replace (M s / Msun + radiated s / Msun) with ((M s + radiated s) / Msun) by (field; lra); rewrite B1; field; lra|]. split; [apply VID; lra|]. split; [lra|]. split; [apply VID; lra|].
    split; [split; [apply VID; lra|replace ((sqrt 3 - 1) * (disk s / Msun)) with ((sqrt 3 - 1) * disk s / Msun) by (field; lra); apply Rmult_le_compat_r; [left; apply Rinv_0_lt_compat; exact MP|lra]]|].
    split; [replace (disk s / Msun + radiated s / Msun) with ((disk s + radiated s) / Msun) by (field; lra); apply DIV; lra|]. replace ((disk s / Msun + radiated s / Msun) * Msun) with (disk s + radiated s) by (field; lra). lra.
Qed.
Print Assumptions C127_remnant.

(** A star without rotation: everything that collapses becomes the hole, without spin and without a disk. *)
Lemma zero_all l : forall s, Forall sound l -> Forall (fun x => om x = 0) l -> 0 < M s -> a s = 0 -> J s = 0 -> collapse_all l s = Ok (State (M s + total l) 0 0 (disk s) (radiated s) (jet s)).
Proof.
  induction l as [|x l IH]; intros s F Z MP A JZ; [cbn; unfold total; cbn; destruct s; cbn in *; subst; rewrite Rplus_0_r; reflexivity|].
  inversion F as [|? ? F1 F2]; subst. inversion Z as [|? ? Z1 Z2]; subst. assert (IP := j_pos (a s) (M s) ltac:(lra) MP). cbn [collapse_all]. rewrite (C127_shell x s ltac:(lra) IP). cbv zeta. rewrite Z1. rewrite !Rmult_0_l.
  assert (D : disk_part 0 (j_cgs (compute_isco_properties (a s) (M s))) = 0). { unfold disk_part, direct_part. destruct (Rlt_dec 0 _); [|lra]. replace (1 - 1) with 0 by ring. apply sqrt_0. }
  rewrite D, JZ. destruct F1 as (_ & _ & DP & _).
  replace (0 + j_cgs (compute_isco_properties (a s) (M s)) * (0 * dm x) + 4 * PI * 0 * ((1 - 0) ^ 2 * (2 + 0) / 3) * ((r x ^ 5 - (r x - dr x) ^ 5) / 5)) with 0 by field.
  replace (M s + (1 - 0) * dm x + 0 * dm x * eff (compute_isco_properties (a s) (M s))) with (M s + dm x) by ring. unfold Rdiv. rewrite !Rmult_0_l. destruct (Rlt_dec 1 0); [lra|]. cbn [rbind].
  rewrite IH; cbn [M a J disk radiated jet]; [|assumption|assumption|lra|reflexivity|reflexivity]. unfold total. cbn [map sum]. f_equal. f_equal; ring.
Qed.
Theorem C127_no_rotation : forall simpson p mc central nu max, well_formed p -> (forall x, In x (omega p) -> x = 0) -> (forall f x, Forall (fun y => y = 0) f -> simpson f x = 0) ->
  (forall y, In y (enclosed p) -> nu < y) -> 0 <= nu <= max ->
  exists n k m_k rem, cut_at (enclosed p) mc n /\ nth_error (firstn n (enclosed p)) k = Some m_k /\ do_core_collapse_BH simpson (Some p) mc central (Some nu) max = Ok rem /\
    M_BH_total rem = last (firstn n (enclosed p)) 0 - nu /\ a_BH_total rem = Some 0 /\
    ((k < n - 1)%nat -> m_disk_accreted rem = Some 0 /\ m_disk_radiated rem = Some 0 /\ BZ_jet_power_total rem = Some 0).
Proof.
  intros simpson p mc central nu max WF ZO ZS POS NU. destruct (initial_spec simpson p mc central nu WF) as (n & k & m_k & i & CUT & NK & NEAR & G & EM & SND & TOT & LEN & NL & A0 & OM).
  assert (KN : (S k <= n)%nat). { assert (K : (k < length (firstn n (enclosed p)))%nat) by (apply nth_error_Some; congruence). rewrite firstn_length in K. lia. }
  assert (MP := Msun_pos). assert (MK : nu < m_k) by (apply POS; apply nth_error_first in NK; apply nth_error_In with (1 := NK)). assert (M0P : 0 < M0 i) by (rewrite EM; nra).
  assert (J00 : J0 i = 0).
  { clear - G ZO ZS. unfold get_initial_BH_properties in G. destruct (length _ =? 0)%nat; [discriminate G|]. destruct (find_index_nearest_neighbour _ _) as [q|]; [|discriminate G]. cbn [rbind] in G. apply (f_equal (fun x => match x with Ok z => J0 z | Raise _ => J0 i end)) in G. cbn [J0] in G. rewrite <- G. rewrite ZS; [ring|].
    apply Forall_forall. intros y I. apply in_map_iff in I. destruct I as ((h & o & x) & <- & I). apply in_combine_r in I. apply in_combine_l in I.
    assert (O : o = 0). { apply ZO. apply in_rev. assert (FI : forall (A : Type) n (l : list A) z, In z (firstn n l) -> In z l) by (intros A0 n0 l0 z0 Q; apply In_nth_error in Q; destruct Q as (t & T); apply nth_error_first in T; apply nth_error_In with (1 := T)). eapply FI. eapply FI. exact I. }
    rewrite O. ring. }
  assert (A00 : a0 i = 0) by (rewrite A0, J00; unfold Rdiv; rewrite !Rmult_0_l; reflexivity).
  assert (OZ : Forall (fun x => om x = 0) (falling i)) by (apply Forall_forall; intros x I; apply ZO; apply OM; exact I).
  exists n, k, m_k. unfold do_core_collapse_BH. destruct (Rlt_dec nu 0); [lra|]. destruct (Rlt_dec max nu); [lra|]. rewrite G. cbn [rbind].
  assert (LASTK : last (firstn n (enclosed p)) 0 = m_k + total (falling i) / Msun) by (rewrite TOT; field; lra).
  destruct (falling i) as [|x l] eqn:F.
  - eexists. split; [exact CUT|]. split; [exact NK|]. split; [reflexivity|]. cbn [M_BH_total a_BH_total]. split; [rewrite LASTK, EM; unfold total; cbn; field; lra|]. split; [rewrite A00; reflexivity|]. cbn in LEN. lia.
  - rewrite <- F in *. rewrite A00. destruct (Rlt_dec 0.99 0); [lra|]. rewrite J00. rewrite zero_all; cbn [M a J disk radiated jet]; [|assumption|assumption|assumption|reflexivity|reflexivity]. cbn [rbind M a J disk radiated jet].
    eexists. split; [exact CUT|]. split; [exact NK|]. split; [reflexivity|]. cbn [M_BH_total a_BH_total m_disk_accreted m_disk_radiated BZ_jet_power_total]. split; [rewrite LASTK, EM; field; lra|]. split; [reflexivity|]. intros _. unfold Rdiv. rewrite !Rmult_0_l. split; [reflexivity|split; reflexivity].
Qed.
Print Assumptions C127_no_rotation.
Definition still : profile := Profile [4; 3; 2; 1] [4; 3; 2; 1] [0; 0; 0; 0] [0; 0; 0; 0].
Definition no_simpson (f x : list R) : R := 0.
Lemma increasing_1234 : increasing [1; 2; 3; 4].
Proof.
  intros [|[|[|[|i]]]] [|[|[|[|j]]]] x y L N1 N2; try lia; cbn in N1, N2; try discriminate; try (destruct i; discriminate); try (destruct j; discriminate).
  all: apply (f_equal (fun o => match o with Some z => z | None => 0 end)) in N1; apply (f_equal (fun o => match o with Some z => z | None => 0 end)) in N2; cbn in N1, N2; lra.
Qed.
Lemma still_ok : well_formed still.
Proof. unfold well_formed, enclosed. cbn. split; [discriminate|]. do 3 (split; [reflexivity|]). split; [exact increasing_1234|]. split; [exact increasing_1234|]. split; intros x [<-|[<-|[<-|[<-|[]]]]]; lra. Qed.
(** More mass collapses than is to: the first shell above the limit falls as a whole. *)
Theorem C127_more_refuted : ~ (forall simpson p mc central nu max rem w, well_formed p -> 0 <= nu <= max -> do_core_collapse_BH simpson (Some p) mc central (Some nu) max = Ok rem ->
    m_disk_radiated rem = Some w -> M_BH_total rem + w <= mc - nu) /\
  exists rem, do_core_collapse_BH no_simpson (Some still) 2.1 2 (Some 0.5) 0.5 = Ok rem /\ M_BH_total rem = 2.5.
Proof.
  destruct (C127_no_rotation no_simpson still 2.1 2 0.5 0.5) as (n & k & m_k & rem & CUT & NK & E & EM & _ & D); [exact still_ok| |reflexivity| |lra|].
  { intros x [<-|[<-|[<-|[<-|[]]]]]; reflexivity. } { intros y [<-|[<-|[<-|[<-|[]]]]]; lra. }
  assert (N3 : n = 3%nat).
  { destruct CUT as [[F _]|(q & x & -> & N & L & B)]; [apply Forall_inv_tail, Forall_inv_tail, Forall_inv in F; lra|]. unfold enclosed in *. cbn in *. destruct q as [|[|[|q]]]; cbn in N.
    - assert (x = 1) by congruence. lra. - assert (x = 2) by congruence. lra. - reflexivity. - exfalso. assert (K := B 2%nat 3 ltac:(lia) eq_refl). lra. }
  subst n. unfold enclosed in *. cbn in EM, NK.
  assert (E25 : M_BH_total rem = 2.5) by lra. split; [|exists rem; split; [exact E|exact E25]].
  intro H. destruct (Nat.lt_ge_cases k 2) as [K|K].
  - destruct (D ltac:(lia)) as (_ & W & _). assert (Q := H no_simpson still 2.1 2 0.5 0.5 rem 0 still_ok ltac:(lra) E W). lra.
  - exfalso. (* the nearest shell to 2 is the second *)
    destruct (initial_spec no_simpson still 2.1 2 0.5 still_ok) as (n' & k' & m' & i & CUT' & NK' & NEAR & G & EM' & SND & TOT & LEN & NL & A0 & OM).
    assert (N3' : n' = 3%nat).
    { destruct CUT' as [[F _]|(q & x & -> & N & L & B)]; [apply Forall_inv_tail, Forall_inv_tail, Forall_inv in F; lra|]. unfold enclosed in *. cbn in *. destruct q as [|[|[|q]]]; cbn in N.
      - assert (x = 1) by congruence. lra. - assert (x = 2) by congruence. lra. - reflexivity. - exfalso. assert (K' := B 2%nat 3 ltac:(lia) eq_refl). lra. }
    subst n'. unfold enclosed in *. cbn in NK', NEAR. assert (Q := NEAR 2 ltac:(tauto)). replace (2 - 2) with 0 in Q by ring. rewrite Rabs_R0 in Q. assert (Q2 := Rabs_pos (m' - 2)). assert (Q3 : Rabs (m' - 2) = 0) by lra. assert (M2 : m' = 2). { destruct (Req_dec (m' - 2) 0) as [Z|Z]; [lra|]. apply Rabs_no_R0 in Z. contradiction. }
    assert (K1 : k' = 1%nat). { destruct k' as [|[|[|k']]]; cbn in NK'; [assert (m' = 1) by congruence; lra|reflexivity|assert (m' = 3) by congruence; lra|destruct k'; discriminate]. }
    subst k'. cbn in LEN.
    assert (F : falling i <> []) by (destruct (falling i); [discriminate LEN|discriminate]).
    assert (W : m_disk_radiated rem = Some 0).
    { assert (JZ : J0 i = 0). { unfold get_initial_BH_properties in G. destruct (length _ =? 0)%nat; [discriminate G|]. destruct (find_index_nearest_neighbour _ _) as [q|]; [|discriminate G]. cbn [rbind] in G. apply (f_equal (fun x => match x with Ok z => J0 z | Raise _ => J0 i end)) in G. cbn [J0] in G. rewrite <- G. unfold no_simpson. ring. }
      assert (AZ : a0 i = 0) by (rewrite A0, JZ; unfold Rdiv; rewrite !Rmult_0_l; reflexivity). assert (MP := Msun_pos).
      unfold do_core_collapse_BH in E. destruct (Rlt_dec 0.5 0); [lra|]. destruct (Rlt_dec 0.5 0.5); [lra|]. rewrite G in E. cbn [rbind] in E. destruct (falling i) as [|x l] eqn:FF; [congruence|]. rewrite <- FF in *. rewrite AZ in E. destruct (Rlt_dec 0.99 0); [lra|]. rewrite JZ in E.
      rewrite zero_all in E; cbn [M a J disk radiated jet] in *; [| |apply Forall_forall; intros y I; destruct (OM y I) as [<-|[<-|[<-|[<-|[]]]]]; reflexivity| |reflexivity|reflexivity]; [|exact SND|rewrite EM', M2; nra].
      cbn [rbind] in E. apply (f_equal (fun x => match x with Ok z => m_disk_radiated z | Raise _ => m_disk_radiated rem end)) in E. cbn in E. rewrite <- E. f_equal. unfold Rdiv. apply Rmult_0_l. }
    assert (Q' := H no_simpson still 2.1 2 0.5 0.5 rem 0 still_ok ltac:(lra) E W). lra.
Qed.
Print Assumptions C127_more_refuted.

(** A shell leaves mass in a disk exactly if it has mass and more angular momentum than the innermost stable orbit. *)
Theorem C127_disk : forall x s s', sound x -> good s -> collapse x s = Ok s' ->
  (disk s < disk s' <-> 0 < dm x /\ j_cgs (compute_isco_properties (a s) (M s)) < om x * r x ^ 2).
Proof.
  intros x s s' (O & H & D & W) (MP & A & JP) E. destruct (Req_dec (a s) 1) as [A1|A1]; [unfold collapse in E; destruct (Req_EM_T (a s) 1); [discriminate E|contradiction]|].
  assert (A' : 0 <= a s < 1) by lra. assert (IP := j_pos (a s) (M s) A' MP). assert (EB := eff_bounds (a s) (M s) A' MP). rewrite (C127_shell x s A1 IP) in E. cbv zeta in E.
  assert (T0 : 0 < sqrt 3) by (apply sqrt_lt_R0; lra). assert (E0 : 0 < eff (compute_isco_properties (a s) (M s))) by (apply Rlt_le_trans with (1 / sqrt 3); [apply Rdiv_lt_0_compat; lra|apply EB]).
  destruct (Rlt_dec 1 _) as [|_] in E; [discriminate E|]. apply (f_equal (fun z => match z with Ok t => disk t | Raise _ => 0 end)) in E. cbn [disk] in E. rewrite <- E. clear E.
  set (j := om x * r x ^ 2) in *. set (ji := j_cgs (compute_isco_properties (a s) (M s))) in *. set (e := eff (compute_isco_properties (a s) (M s))) in *. assert (CR := disk_range j ji IP).
  assert (C : 0 < disk_part j ji <-> ji < j).
  { unfold disk_part, direct_part. destruct (Rlt_dec j ji) as [L|L]; [replace (1 - 1) with 0 by ring; rewrite sqrt_0; split; intro; lra|]. split; intro Q.
    - destruct (Req_dec ji j) as [Z|Z]; [exfalso; rewrite Z in Q; replace (1 - j / j) with 0 in Q by (field; lra); rewrite sqrt_0 in Q; lra|lra].
    - apply sqrt_lt_R0. assert (ji / j < 1); [|lra]. apply Rmult_lt_reg_r with j; [lra|]. unfold Rdiv. rewrite Rmult_assoc, Rinv_l by lra. lra. }
  split.
  - intro Q. assert (0 < disk_part j ji * dm x * e) by lra. assert (N : disk_part j ji <> 0) by (intro Z; rewrite Z, !Rmult_0_l in H0; lra). assert (N2 : dm x <> 0) by (intro Z; rewrite Z, Rmult_0_r, Rmult_0_l in H0; lra). split; [lra|]. apply C. lra.
  - intros [Q1 Q2]. apply C in Q2. assert (0 < disk_part j ji * dm x * e); [|lra]. apply Rmult_lt_0_compat; [apply Rmult_lt_0_compat; assumption|exact E0].
Qed.
Print Assumptions C127_disk.
Example C127_case : let s := State Msun 0 0 0 0 0 in good s /\ sound (Shell 0.001 (2 * 10 ^ 10) 1 (10 ^ 9) (Msun / 100)) /\ j_cgs (compute_isco_properties (a s) (M s)) < 0.001 * (2 * 10 ^ 10) ^ 2.
Proof.
  cbv zeta. assert (MP := Msun_pos). split; [split; [exact MP|split; [split; cbn; lra|cbn; lra]]|]. split; [repeat split; cbn; lra|]. cbn [a M].
  destruct (C125_range 0 Msun ltac:(lra) MP) as [[_ U] _]. apply Rle_lt_trans with (1 := U). assert (T : sqrt 3 <= 2) by (replace 2 with (sqrt (2 * 2)) by (apply sqrt_square; lra); apply sqrt_le_1_alt; lra). unfold standard_cgrav, clight, Msun in *. lra.
Qed.

(** The loss of neutrinos has to be given, and lies between 0 and its maximum. *)
Theorem C127_neutrinos : forall simpson star mc central max,
  do_core_collapse_BH simpson star mc central None max = Raise TypeError /\
  (forall nu, nu < 0 \/ max < nu -> do_core_collapse_BH simpson star mc central (Some nu) max = Raise ValueError).
Proof.
  intros. split; [reflexivity|]. intros nu H. unfold do_core_collapse_BH. destruct (Rlt_dec nu 0); [reflexivity|]. destruct (Rlt_dec max nu); [reflexivity|]. lra.
Qed.
(** Without a profile the mass, already in solar masses, is divided by the mass of the Sun. *)
Theorem C127_units_refuted : (forall simpson mc central nu max, 0 <= nu <= max -> do_core_collapse_BH simpson None mc central (Some nu) max = Ok (Remnant ((central - nu) / Msun) None None None None)) /\
  ~ (forall simpson mc central nu max rem, 0 <= nu <= max -> do_core_collapse_BH simpson None mc central (Some nu) max = Ok rem -> M_BH_total rem = central - nu).
Proof.
  assert (F : forall simpson mc central nu max, 0 <= nu <= max -> do_core_collapse_BH simpson None mc central (Some nu) max = Ok (Remnant ((central - nu) / Msun) None None None None)).
  { intros simpson mc central nu max N. unfold do_core_collapse_BH. destruct (Rlt_dec nu 0); [lra|]. destruct (Rlt_dec max nu); [lra|]. reflexivity. }
  split; [exact F|]. intro H. specialize (H no_simpson 10 2.5 0.5 0.5 _ ltac:(lra) (F no_simpson 10 2.5 0.5 0.5 ltac:(lra))). cbn in H. unfold Msun in H.
  assert (K : (2.5 - 0.5) / 1.9892e33 < 1) by (apply Rmult_lt_reg_r with 1.9892e33; [lra|]; unfold Rdiv; rewrite Rmult_assoc, Rinv_l by lra; lra). lra.
Qed.
Print Assumptions C127_units_refuted.
(** The spin is at most 0.99 before the first shell falls; without a shell left to fall, the spin of the centre is returned as it is. *)
Definition fast : profile := Profile [3; 2; 1] [3; 2; 1] [0; 0; 0] [1; 1; 1].
(** Simpson's rule for three points at equal distances *)
Definition simpson3 (f x : list R) : R := match f, x with [f0; f1; f2], [x0; _; x2] => (x2 - x0) / 6 * (f0 + 4 * f1 + f2) | _, _ => 0 end.
Lemma fast_ok : well_formed fast.
Proof.
  assert (I : increasing [1; 2; 3]).
  { intros [|[|[|i]]] [|[|[|j]]] x y L N1 N2; try lia; cbn in N1, N2; try discriminate; try (destruct i; discriminate); try (destruct j; discriminate).
    all: apply (f_equal (fun o => match o with Some z => z | None => 0 end)) in N1; apply (f_equal (fun o => match o with Some z => z | None => 0 end)) in N2; cbn in N1, N2; lra. }
  unfold well_formed, enclosed. cbn. split; [discriminate|]. do 3 (split; [reflexivity|]). split; [exact I|]. split; [exact I|]. split; intros x [<-|[<-|[<-|[]]]]; lra.
Qed.
Theorem C127_uncapped_refuted : ~ (forall simpson p mc central nu max rem s, well_formed p -> 0 <= nu <= max -> do_core_collapse_BH simpson (Some p) mc central (Some nu) max = Ok rem -> a_BH_total rem = Some s -> s <= 1).
Proof.
  intro H. assert (MP := Msun_pos).
  destruct (initial_spec simpson3 fast 5 3 0.5 fast_ok) as (n & k & m_k & i & CUT & NK & NEAR & G & EM & SND & TOT & LEN & NL & A0 & OM).
  assert (N3 : n = 3%nat). { destruct CUT as [[_ ->]|(q & x & _ & N & L & _)]; [reflexivity|exfalso]. unfold enclosed in N. cbn in N. destruct q as [|[|[|q]]]; cbn in N; [assert (x = 1) by congruence|assert (x = 2) by congruence|assert (x = 3) by congruence|destruct q; discriminate]; lra. }
  subst n. unfold enclosed in *. cbn in NK, NEAR. assert (Q := NEAR 3 ltac:(tauto)). replace (3 - 3) with 0 in Q by ring. rewrite Rabs_R0 in Q. assert (Q2 := Rabs_pos (m_k - 3)). assert (M3 : m_k = 3). { destruct (Req_dec (m_k - 3) 0) as [Z|Z]; [lra|]. apply Rabs_no_R0 in Z. lra. }
  assert (K2 : k = 2%nat). { destruct k as [|[|[|k]]]; cbn in NK; [assert (m_k = 1) by congruence; lra|assert (m_k = 2) by congruence; lra|reflexivity|destruct k; discriminate]. }
  subst k m_k. cbn in LEN. assert (F : falling i = []) by (destruct (falling i); [reflexivity|discriminate]).
  assert (E : do_core_collapse_BH simpson3 (Some fast) 5 3 (Some 0.5) 0.5 = Ok (Remnant (M0 i / Msun) (Some (a0 i)) None None None)).
  { unfold do_core_collapse_BH. destruct (Rlt_dec 0.5 0); [lra|]. destruct (Rlt_dec 0.5 0.5); [lra|]. rewrite G. cbn [rbind]. rewrite F. reflexivity. }
  specialize (H simpson3 fast 5 3 0.5 0.5 _ _ fast_ok ltac:(lra) E eq_refl). revert H. apply Rlt_not_le. rewrite A0, EM.
  assert (JV : J0 i = 2 * PI * (4 / 3) * (Rsun ^ 5 / 3 * (5 / 6) * (1 + 4 * 2 ^ 4 + 3 ^ 4))).
  { unfold get_initial_BH_properties in G. cbn [mass radius logRho omega fast rev app map length Nat.eqb] in G.
    assert (I3 : i_rem [1 * Msun; 2 * Msun; 3 * Msun] 5 = 3%nat) by (unfold i_rem; cbn [rev app length]; rewrite mass_back; unfold le; destruct (Rle_dec 3 5); [reflexivity|lra]).
    rewrite I3 in G. cbn [firstn] in G.
    assert (K : find_index_nearest_neighbour [1 * Msun; 2 * Msun; 3 * Msun] (3 * Msun) = Ok 2%nat).
    { cbn. replace (1 * Msun - 3 * Msun) with (- (2 * Msun)) by ring. replace (2 * Msun - 3 * Msun) with (- Msun) by ring. replace (3 * Msun - 3 * Msun) with 0 by ring. rewrite !Rabs_Ropp, Rabs_R0, !Rabs_pos_eq by lra.
      destruct (Rlt_dec Msun (2 * Msun)); [|lra]. destruct (Rlt_dec 0 Msun); [reflexivity|lra]. }
    rewrite K in G. cbn [rbind] in G. apply (f_equal (fun x => match x with Ok z => J0 z | Raise _ => J0 i end)) in G. cbn [J0] in G. rewrite <- G. cbn [firstn combine map simpson3 nth]. rewrite Rpower_O by lra.
    replace ((3 * Msun - 0.5 * Msun) / (3 * Msun)) with (5 / 6) by (apply Rmult_eq_reg_r with (3 * Msun); [|lra]; unfold Rdiv; rewrite (Rmult_assoc (3 * Msun - 0.5 * Msun)), Rinv_l by lra; lra). field. }
  rewrite JV. assert (PP : 3 < PI) by (assert (P1 := PI2_3_2); lra). unfold standard_cgrav, clight, Msun, Rsun.
  match goal with |- 1 < ?e => replace e with (PI * (e / PI)) by (field; lra) end.
  apply Rlt_le_trans with (3 * 1); [lra|]. apply Rmult_le_compat; [lra|lra|lra|].
  match goal with |- 1 <= ?n / ?d / PI => replace (n / d / PI) with (n / PI / d) by (field; lra) end.
  apply Rmult_le_reg_r with (6.67428e-8 * ((3 - 0.5) * 1.9892e33) ^ 2); [lra|].
  match goal with |- _ <= ?n / ?d * ?c => replace (n / d * c) with n by (field; lra) end.
  match goal with |- _ <= ?n / PI => replace (n / PI) with (2 * (4 / 3) * (6.9598e10 ^ 5 / 3 * (5 / 6) * (1 + 4 * 2 ^ 4 + 3 ^ 4)) * 2.99792458e10) by (field; lra) end. lra.
Qed.
Print Assumptions C127_uncapped_refuted.

(** ** C128: the ejected hydrogen and helium *)
(** The shells as their enclosed mass and mass fraction, from the centre; a shell is ejected if it begins above the compact object. *)
Fixpoint ejected (c : R) (l : list (R * R)) : R :=
  match l with (m1, _) :: (((m2, x2) :: _) as l') => (if Rlt_dec c m1 then (m2 - m1) * x2 else 0) + ejected c l' | _ => 0 end.
Lemma increasing_tail x l : increasing (x :: l) -> increasing l.
Proof. intros H i j a b L N1 N2. apply (H (S i) (S j) a b); [lia|exact N1|exact N2]. Qed.
Lemma increasing_head x l y : increasing (x :: l) -> In y l -> x < y.
Proof. intros H I. apply In_nth_error in I. destruct I as (j & N). apply (H 0%nat (S j) x y); [lia|reflexivity|exact N]. Qed.
Lemma ejected_all c l : forall X, length X = length l -> (forall m, In m l -> c < m) -> ejected c (combine l X) = sum (zip_with Rmult (diffs l) (tl X)).
Proof.
  induction l as [|m1 l IH]; intros X L A; [reflexivity|]. destruct X as [|x1 X]; [discriminate|]. destruct l as [|m2 l]; [destruct X; [reflexivity|discriminate]|]. destruct X as [|x2 X]; [discriminate|].
  change (ejected c (combine (m1 :: m2 :: l) (x1 :: x2 :: X))) with ((if Rlt_dec c m1 then (m2 - m1) * x2 else 0) + ejected c (combine (m2 :: l) (x2 :: X))).
  destruct (Rlt_dec c m1) as [_|N]; [|exfalso; apply N; apply A; left; reflexivity]. rewrite IH; [|cbn in *; lia|intros m I; apply A; right; exact I]. reflexivity.
Qed.
Lemma ejected_from c l : forall X i, length X = length l -> increasing l -> first_where (fun m => lt c m) l = Some i ->
  ejected c (combine l X) = sum (zip_with Rmult (skipn i (diffs l)) (skipn (S i) X)).
Proof.
  induction l as [|m1 l IH]; intros X i L INC W; [discriminate|]. destruct X as [|x1 X]; [discriminate|]. cbn [first_where] in W. unfold lt in W at 1. destruct (Rlt_dec c m1) as [C|C].
  - assert (i = 0%nat) by congruence. subst i. cbn [skipn]. rewrite ejected_all; [reflexivity|exact L|]. intros m [<-|I]; [exact C|]. assert (K := increasing_head _ _ _ INC I). lra.
  - destruct (first_where (fun m => lt c m) l) as [i'|] eqn:W'; [|discriminate]. cbn in W. assert (i = S i') by congruence. subst i. destruct l as [|m2 l]; [discriminate|]. destruct X as [|x2 X]; [discriminate|].
    change (ejected c (combine (m1 :: m2 :: l) (x1 :: x2 :: X))) with ((if Rlt_dec c m1 then (m2 - m1) * x2 else 0) + ejected c (combine (m2 :: l) (x2 :: X))). destruct (Rlt_dec c m1); [contradiction|].
    rewrite (IH (x2 :: X) i'); [|cbn in *; lia|apply increasing_tail with (1 := INC)|reflexivity]. change (diffs (m1 :: m2 :: l)) with ((m2 - m1) :: diffs (m2 :: l)). cbn [skipn]. ring.
Qed.
Lemma ejected_none c l : forall X, (forall m, In m l -> m <= c) -> ejected c (combine l X) = 0.
Proof.
  induction l as [|m1 l IH]; intros X A; [reflexivity|]. destruct X as [|x1 X]; [reflexivity|]. destruct l as [|m2 l]; [reflexivity|]. destruct X as [|x2 X]; [reflexivity|].
  change (ejected c (combine (m1 :: m2 :: l) (x1 :: x2 :: X))) with ((if Rlt_dec c m1 then (m2 - m1) * x2 else 0) + ejected c (combine (m2 :: l) (x2 :: X))). rewrite IH by (intros m I; apply A; right; exact I).
  destruct (Rlt_dec c m1) as [B|_]; [|ring]. assert (K := A m1 (or_introl eq_refl)). lra.
Qed.
Lemma surface_max l s q : increasing l -> rev l = s :: q -> forall m, In m l -> m <= s.
Proof.
  intros INC E m I. assert (F : l = rev q ++ [s]) by (rewrite <- (rev_involutive l), E; reflexivity). subst l. apply In_nth_error in I. destruct I as (i & N). assert (B : (i < length (rev q ++ [s]))%nat) by (apply nth_error_Some; congruence). rewrite app_length in B. cbn in B.
  destruct (Nat.eq_dec i (length (rev q))) as [->|NE]; [rewrite nth_error_app2, Nat.sub_diag in N by lia; cbn in N; assert (s = m) by congruence; lra|]. assert (m < s); [|lra]. apply (INC i (length (rev q))); [lia|exact N|]. rewrite nth_error_app2, Nat.sub_diag by lia. reflexivity.
Qed.
Definition plain (p : composition) : Prop := c_mass p <> [] /\ length (c_H p) = length (c_mass p) /\ length (c_He p) = length (c_mass p) /\ increasing (rev (c_mass p)).

Theorem C128_masses : forall p c verbose, plain p -> verbose = false \/ (forall x y l, c_mass p = x :: y :: l -> c < y \/ x <= c) /\ (forall x, c_mass p = [x] -> x <= c) ->
  get_ejecta_element_mass_at_collapse (Some p) c verbose = Ok (ejected c (combine (rev (c_mass p)) (rev (c_H p))), ejected c (combine (rev (c_mass p)) (rev (c_He p)))).
Proof.
  intros p c verbose (NE & L1 & L2 & INC) V. unfold get_ejecta_element_mass_at_collapse. rewrite rev_involutive. destruct (c_mass p) as [|s q] eqn:MS; [congruence|]. rewrite <- MS in *.
  assert (RV : rev (rev (c_mass p)) = s :: q) by (rewrite rev_involutive; exact MS). assert (MAX := surface_max _ _ _ INC RV). unfold le. destruct (Rle_dec s c) as [C|C].
  - rewrite !ejected_none by (intros m I; assert (K := MAX m I); lra). reflexivity.
  - assert (W := first_where_spec (fun m => lt c m) (rev (c_mass p))). unfold argmax. destruct (first_where _ (rev (c_mass p))) as [i|] eqn:FW.
    + assert (LX : length (rev (c_H p)) = length (rev (c_mass p))) by (rewrite !rev_length; exact L1). assert (LY : length (rev (c_He p)) = length (rev (c_mass p))) by (rewrite !rev_length; exact L2).
      rewrite (ejected_from c _ _ i LX INC FW), (ejected_from c _ _ i LY INC FW). destruct W as [(x & N & _) B]. assert (IL : (i < length (rev (c_mass p)))%nat) by (apply nth_error_Some; congruence).
      destruct (Nat.ltb_spec i (length (diffs (rev (c_mass p))))) as [LT|GE]; rewrite diffs_len in *.
      * rewrite !skipn_length, diffs_len, LX, LY. replace (length (rev (c_mass p)) - 1 - i)%nat with (length (rev (c_mass p)) - S i)%nat by lia. rewrite !Nat.eqb_refl. reflexivity.
      * assert (Z : skipn i (diffs (rev (c_mass p))) = []) by (apply skipn_all2; rewrite diffs_len; lia). rewrite Z. destruct V as [-> | [V1 V2]]; [reflexivity|]. exfalso.
        destruct q as [|y q]; [assert (K := V2 s MS); lra|]. destruct (V1 s y q MS) as [K|K]; [|lra]. assert (i = length (rev (c_mass p)) - 1)%nat by lia. subst i. rewrite MS in B. cbn [rev] in B. rewrite !app_length in B. cbn [length] in B.
        assert (NY : nth_error ((rev q ++ [y]) ++ [s]) (length (rev q)) = Some y) by (rewrite nth_error_app1 by (rewrite app_length; cbn; lia); rewrite nth_error_app2, Nat.sub_diag by lia; reflexivity).
        specialize (B (length (rev q)) y ltac:(lia) NY). unfold lt in B. destruct (Rlt_dec c y); [discriminate|contradiction].
    + exfalso. assert (K := W s). rewrite <- in_rev, MS in K. specialize (K (or_introl eq_refl)). unfold lt in K. destruct (Rlt_dec c s); [discriminate|lra].
Qed.
Print Assumptions C128_masses.

(** What it implies: with mass fractions that are fractions no more is ejected than is above the compact object, and less by a heavier one. *)
Lemma ejected_sum c : forall l X Y, length X = length l -> length Y = length l -> increasing l -> (forall x, In x X -> 0 <= x) -> (forall y, In y Y -> 0 <= y) -> (forall i x y, nth_error X i = Some x -> nth_error Y i = Some y -> x + y <= 1) ->
  0 <= ejected c (combine l X) /\ 0 <= ejected c (combine l Y) /\ ejected c (combine l X) + ejected c (combine l Y) <= Rmax 0 (last l 0 - Rmax c (hd 0 l)).
Proof.
  induction l as [|m1 l IH]; intros X Y LX LY INC X0 Y0 XY; [cbn; repeat split; try lra; assert (K := Rmax_l 0 (0 - Rmax c 0)); lra|].
  destruct X as [|x1 X]; [discriminate|]. destruct Y as [|y1 Y]; [discriminate|]. destruct l as [|m2 l]; [cbn; assert (K := Rmax_l 0 (m1 - Rmax c m1)); repeat split; lra|]. destruct X as [|x2 X]; [discriminate|]. destruct Y as [|y2 Y]; [discriminate|].
  change (ejected c (combine (m1 :: m2 :: l) (x1 :: x2 :: X))) with ((if Rlt_dec c m1 then (m2 - m1) * x2 else 0) + ejected c (combine (m2 :: l) (x2 :: X))).
  change (ejected c (combine (m1 :: m2 :: l) (y1 :: y2 :: Y))) with ((if Rlt_dec c m1 then (m2 - m1) * y2 else 0) + ejected c (combine (m2 :: l) (y2 :: Y))).
  destruct (IH (x2 :: X) (y2 :: Y)) as (I1 & I2 & I3); [cbn in *; lia|cbn in *; lia|apply increasing_tail with (1 := INC)|intros x I; apply X0; right; exact I|intros x I; apply Y0; right; exact I|intros i x y N1 N2; apply (XY (S i) x y N1 N2)|].
  assert (P2 : 0 <= x2) by (apply X0; right; left; reflexivity). assert (Q2 : 0 <= y2) by (apply Y0; right; left; reflexivity). assert (S2 : x2 + y2 <= 1) by (apply (XY 1%nat); reflexivity). assert (M12 : m1 < m2) by (apply (increasing_head _ _ m2 INC); left; reflexivity).
  assert (ML : m2 <= last (m2 :: l) 0). { destruct l as [|z l] using rev_ind; [cbn; lra|]. rewrite app_comm_cons, last_last. assert (m2 < z); [|lra]. apply (increasing_head m2 (l ++ [z])); [apply increasing_tail with (1 := INC)|apply in_or_app; right; left; reflexivity]. }
  change (last (m1 :: m2 :: l) 0) with (last (m2 :: l) 0). cbn [hd] in *. set (L := last (m2 :: l) 0) in *.
  destruct (Rlt_dec c m1) as [C|C].
  - rewrite (Rmax_right c m2) in I3 by lra. rewrite (Rmax_right c m1) by lra. rewrite Rmax_right in I3 by lra. rewrite Rmax_right by lra. assert (0 <= (m2 - m1) * x2) by (apply Rmult_le_pos; lra). assert (0 <= (m2 - m1) * y2) by (apply Rmult_le_pos; lra). assert ((m2 - m1) * (x2 + y2) <= (m2 - m1) * 1) by (apply Rmult_le_compat_l; lra). repeat split; lra.
  - rewrite (Rmax_left c m1) by lra. rewrite !Rplus_0_l. repeat split; try lra. apply Rle_trans with (1 := I3). apply Rle_max_compat_l. assert (K := Rmax_l c m2). lra.
Qed.
Theorem C128_bound : forall p c verbose h he, plain p -> (forall x, In x (c_H p) -> 0 <= x) -> (forall x, In x (c_He p) -> 0 <= x) -> (forall i x y, nth_error (rev (c_H p)) i = Some x -> nth_error (rev (c_He p)) i = Some y -> x + y <= 1) ->
  get_ejecta_element_mass_at_collapse (Some p) c verbose = Ok (h, he) -> 0 <= h /\ 0 <= he /\ h + he <= Rmax 0 (hd 0 (c_mass p) - c).
Proof.
  intros p c verbose h he PL X0 Y0 XY E. assert (EF : get_ejecta_element_mass_at_collapse (Some p) c false = Ok (h, he)).
  { revert E. unfold get_ejecta_element_mass_at_collapse. destruct (rev (rev (c_mass p))); [intro; assumption|]. destruct (le _ _); [intro; assumption|]. destruct (_ <? _)%nat; [intro; assumption|]. destruct verbose; [discriminate|intro; assumption]. }
  rewrite (C128_masses p c false PL (or_introl eq_refl)) in EF. destruct PL as (NE & L1 & L2 & INC).
  destruct (ejected_sum c (rev (c_mass p)) (rev (c_H p)) (rev (c_He p))) as (I1 & I2 & I3); [rewrite !rev_length; exact L1|rewrite !rev_length; exact L2|exact INC|intros x I; apply X0; apply in_rev; exact I|intros x I; apply Y0; apply in_rev; exact I|exact XY|].
  apply (f_equal (fun z => match z with Ok t => t | Raise _ => (0, 0) end)) in EF. assert (EH := f_equal fst EF). assert (EHe := f_equal snd EF). cbn [fst snd] in EH, EHe. rewrite <- EH, <- EHe. split; [exact I1|]. split; [exact I2|]. apply Rle_trans with (1 := I3). apply Rle_max_compat_l.
  destruct (c_mass p) as [|s q]; [congruence|]. cbn [rev hd]. rewrite last_last. assert (K := Rmax_l c (hd 0 (rev q ++ [s]))). lra.
Qed.
Print Assumptions C128_bound.
Lemma ejected_mono c c' : c <= c' -> forall l X, length X = length l -> increasing l -> (forall x, In x X -> 0 <= x) -> ejected c' (combine l X) <= ejected c (combine l X).
Proof.
  intro C. induction l as [|m1 l IH]; intros X LX INC X0; [cbn; lra|]. destruct X as [|x1 X]; [discriminate|]. destruct l as [|m2 l]; [cbn; lra|]. destruct X as [|x2 X]; [discriminate|].
  change (ejected c (combine (m1 :: m2 :: l) (x1 :: x2 :: X))) with ((if Rlt_dec c m1 then (m2 - m1) * x2 else 0) + ejected c (combine (m2 :: l) (x2 :: X))).
  change (ejected c' (combine (m1 :: m2 :: l) (x1 :: x2 :: X))) with ((if Rlt_dec c' m1 then (m2 - m1) * x2 else 0) + ejected c' (combine (m2 :: l) (x2 :: X))).
  assert (I := IH (x2 :: X) ltac:(cbn in *; lia) (increasing_tail _ _ INC) ltac:(intros x I; apply X0; right; exact I)). assert (P2 : 0 <= x2) by (apply X0; right; left; reflexivity). assert (M12 : m1 < m2) by (apply (increasing_head _ _ m2 INC); left; reflexivity). assert (0 <= (m2 - m1) * x2) by (apply Rmult_le_pos; lra).
  destruct (Rlt_dec c m1), (Rlt_dec c' m1); lra.
Qed.
Theorem C128_monotone : forall p c c' h he h' he', plain p -> (forall x, In x (c_H p) -> 0 <= x) -> (forall x, In x (c_He p) -> 0 <= x) -> c <= c' ->
  get_ejecta_element_mass_at_collapse (Some p) c false = Ok (h, he) -> get_ejecta_element_mass_at_collapse (Some p) c' false = Ok (h', he') -> h' <= h /\ he' <= he.
Proof.
  intros p c c' h he h' he' PL X0 Y0 C E E'. rewrite (C128_masses p c false PL (or_introl eq_refl)) in E. rewrite (C128_masses p c' false PL (or_introl eq_refl)) in E'. destruct PL as (NE & L1 & L2 & INC).
  apply (f_equal (fun z => match z with Ok t => t | Raise _ => (0, 0) end)) in E. apply (f_equal (fun z => match z with Ok t => t | Raise _ => (0, 0) end)) in E'.
  assert (A1 := f_equal fst E). assert (A2 := f_equal snd E). assert (B1 := f_equal fst E'). assert (B2 := f_equal snd E'). cbn [fst snd] in *. rewrite <- A1, <- A2, <- B1, <- B2.
  split; apply ejected_mono; try assumption; try (rewrite !rev_length; assumption); intros x I; [apply X0|apply Y0]; apply in_rev; exact I.
Qed.
Print Assumptions C128_monotone.

(** The part of the shell at the boundary that is above the compact object is not counted, so the ejecta of a star of pure hydrogen are not the difference of the masses; if only the outermost
    shell is above, nothing is counted, and printing fails. *)
Definition pure_hydrogen : composition := Composition [3; 2; 1] [1; 1; 1] [0; 0; 0].
Lemma pure_hydrogen_ok : plain pure_hydrogen.
Proof. unfold plain. cbn. split; [discriminate|]. do 2 (split; [reflexivity|]). destruct fast_ok as (_ & _ & _ & _ & I & _). exact I. Qed.
Example C128_case : get_ejecta_element_mass_at_collapse (Some pure_hydrogen) 1.5 false = Ok (1, 0) /\ get_ejecta_element_mass_at_collapse (Some pure_hydrogen) 0.5 true = Ok (2, 0).
Proof.
  split.
  - rewrite (C128_masses pure_hydrogen 1.5 false pure_hydrogen_ok (or_introl eq_refl)). cbn. destruct (Rlt_dec 1.5 1); [lra|]. destruct (Rlt_dec 1.5 2); [|lra]. apply f_equal. apply f_equal2; ring.
  - rewrite (C128_masses pure_hydrogen 0.5 true pure_hydrogen_ok). 2: { right. split; [intros x y l E; left; cbn in E; assert (y = 2) by congruence; lra|intros x E; cbn in E; discriminate]. }
    cbn. destruct (Rlt_dec 0.5 1); [|lra]. destruct (Rlt_dec 0.5 2); [|lra]. apply f_equal. apply f_equal2; ring.
Qed.
Theorem C128_partial_shell_refuted : ~ (forall p c h he, plain p -> (forall x, In x (c_H p) -> x = 1) -> 0 <= c <= hd 0 (c_mass p) -> get_ejecta_element_mass_at_collapse (Some p) c false = Ok (h, he) -> h = hd 0 (c_mass p) - c).
Proof. intro H. destruct C128_case as [C _]. specialize (H pure_hydrogen 1.5 1 0 pure_hydrogen_ok ltac:(intros x [<-|[<-|[<-|[]]]]; reflexivity) ltac:(cbn; lra) C). cbn in H. lra. Qed.
Print Assumptions C128_partial_shell_refuted.
Theorem C128_verbose_refuted : ~ (forall p c, plain p -> get_ejecta_element_mass_at_collapse (Some p) c true = get_ejecta_element_mass_at_collapse (Some p) c false) /\
  get_ejecta_element_mass_at_collapse (Some pure_hydrogen) 2.5 false = Ok (0, 0).
Proof.
  assert (A : forall v, get_ejecta_element_mass_at_collapse (Some pure_hydrogen) 2.5 v = if v then Raise (OtherError "UnboundLocalError") else Ok (0, 0)).
  { intro v. cbn. unfold le, lt. destruct (Rle_dec 3 2.5); [lra|]. unfold argmax. cbn. destruct (Rlt_dec 2.5 1); [lra|]. destruct (Rlt_dec 2.5 2); [lra|]. destruct (Rlt_dec 2.5 3); [reflexivity|lra]. }
  split; [|apply (A false)]. intro H. specialize (H pure_hydrogen 2.5 pure_hydrogen_ok). rewrite (A true), (A false) in H. discriminate.
Qed.
Print Assumptions C128_verbose_refuted.

(** The angular momentum of the centre: of a ball of uniform density that rotates rigidly it is 2/5 M R^2 times the frequency, less the part taken by the neutrinos, if the integration is exact for such balls. *)
Definition exact_rule (f x : list R) : R := last f 0 / last x 0 ^ 4 * (last x 0 ^ 5 / 5).
Lemma last_map {A B} (f : A -> B) l d : last (map f l) (f d) = f (last l d).
Proof. induction l as [|x [|y l] IH]; [reflexivity|reflexivity|]. change (last (map f (x :: y :: l)) (f d)) with (last (map f (y :: l)) (f d)). rewrite IH. reflexivity. Qed.
Lemma exact_rule_exact K xs : exact_rule (map (fun x => K * x ^ 4) xs) xs = K * (last xs 0 ^ 5 / 5).
Proof.
  unfold exact_rule. replace 0 with (K * 0 ^ 4) at 1 by ring. rewrite (last_map (fun x => K * x ^ 4)). destruct (Req_dec (last xs 0) 0) as [->|N]; [unfold Rdiv; ring|]. field. exact N.
Qed.
Lemma uniform_integrand h o f : forall (H O X : list R), length H = length X -> length O = length X -> (forall y, In y H -> y = h) -> (forall y, In y O -> y = o) ->
  map (fun '(h, (o, x)) => f * h * o * x ^ 4) (combine H (combine O X)) = map (fun x => (f * h * o) * x ^ 4) X.
Proof.
  induction H as [|h1 H IH]; intros [|o1 O] [|x1 X] L1 L2 A B; try discriminate; [reflexivity|]. cbn. rewrite IH; [|cbn in *; lia|cbn in *; lia|intros y I; apply A; right; exact I|intros y I; apply B; right; exact I].
  rewrite (A h1), (B o1) by (left; reflexivity). reflexivity.
Qed.
Theorem C127_centre : forall simpson p mc central nu i lr o, well_formed p -> (forall K xs, simpson (map (fun x => K * x ^ 4) xs) xs = K * (last xs 0 ^ 5 / 5)) ->
  (forall y, In y (logRho p) -> y = lr) -> (forall y, In y (omega p) -> y = o) -> 0 < nth 0 (enclosed p) 0 ->
  get_initial_BH_properties simpson p mc central nu = Ok i ->
  exists k m_k r_k, nth_error (enclosed p) k = Some m_k /\ nth_error (rev (radius p)) k = Some r_k /\ M0 i = (m_k - nu) * Msun /\
    let R := r_k * Rsun in let ball := 4 / 3 * PI * R ^ 3 * Rpower 10 lr in J0 i = (m_k - nu) / m_k * (2 / 5 * ball * R ^ 2 * o) /\ a0 i = J0 i * clight / (standard_cgrav * M0 i ^ 2).
Proof.
  intros simpson p mc central nu i lr o WF EX HR HO P0 G. assert (MP := Msun_pos). destruct WF as (NE & L1 & L2 & L3 & INC & _). unfold get_initial_BH_properties in G.
  set (all := map (fun m => m * Msun) (rev (mass p))) in *. destruct (length all =? 0)%nat eqn:LZ; [discriminate G|]. apply Nat.eqb_neq in LZ. set (n := i_rem all mc) in *.
  assert (NL : (n <= length all)%nat).
  { unfold n. assert (C := C126_cut (enclosed p) mc INC). fold all in C. unfold enclosed in C at 2. fold all in C. destruct C as [[_ ->]|(q & x & -> & N & _)]; [unfold all, enclosed; rewrite map_length; lia|]. assert (q < length (enclosed p))%nat by (apply nth_error_Some; congruence). unfold all. rewrite map_length. unfold enclosed in *. lia. }
  destruct (find_index_nearest_neighbour (firstn n all) (central * Msun)) as [k|] eqn:FK; [|discriminate G]. cbn [rbind] in G.
  assert (KN : (k < length (firstn n all))%nat).
  { destruct (firstn n all) as [|z q] eqn:FZ; [discriminate FK|]. destruct (C126_nearest (z :: q) (central * Msun) ltac:(discriminate)) as (k' & x & F & N & _). assert (k' = k) by congruence. subst k'. apply nth_error_Some. congruence. }
  rewrite firstn_length in KN. assert (KA : (k < n)%nat) by lia. assert (KM : (k < length (mass p))%nat) by (unfold all in KN; rewrite map_length, rev_length in KN; lia).
  destruct (nth_error (enclosed p) k) as [m_k|] eqn:NM; [|apply nth_error_None in NM; unfold enclosed in NM; rewrite rev_length in NM; lia].
  destruct (nth_error (rev (radius p)) k) as [r_k|] eqn:NR; [|apply nth_error_None in NR; rewrite rev_length in NR; lia].
  assert (MK : nth k (firstn n all) 0 = m_k * Msun).
  { apply nth_error_nth. assert (E : nth_error all k = Some (m_k * Msun)) by (unfold all; rewrite nth_error_map; unfold enclosed in NM; rewrite NM; reflexivity). rewrite <- (firstn_skipn n all), nth_error_app1 in E by (rewrite firstn_length; lia). exact E. }
  rewrite MK in G.
  assert (MPOS : 0 < m_k).
  { destruct (enclosed p) as [|e0 q] eqn:EE; [destruct k; discriminate|]. cbn in P0. destruct k as [|k]; [cbn in NM; assert (e0 = m_k) by congruence; lra|]. assert (e0 < m_k); [|lra]. apply (INC 0%nat (S k)); [lia|reflexivity|exact NM]. }
  exists k, m_k, r_k. split; [exact NM|]. split; [exact NR|].
  set (radii := map (fun x => x * Rsun) (rev (radius p))) in *. set (dens := map (fun x => Rpower 10 x) (rev (logRho p))) in *.
  assert (FI : forall (A : Type) n (l : list A) z, In z (firstn n l) -> In z l) by (intros A n0 l0 z0 Q; rewrite <- (firstn_skipn n0 l0); apply in_or_app; left; exact Q).
  assert (LENR : length (firstn (S k) (firstn n radii)) = S k) by (rewrite !firstn_length; unfold radii; rewrite map_length, rev_length, L1; unfold all in NL; rewrite map_length, rev_length in NL; lia).
  rewrite (uniform_integrand (Rpower 10 lr) o) in G.
  - rewrite EX in G. assert (LAST : last (firstn (S k) (firstn n radii)) 0 = r_k * Rsun).
    { assert (E : nth_error radii k = Some (r_k * Rsun)) by (unfold radii; rewrite nth_error_map, NR; reflexivity). rewrite firstn_firstn, Nat.min_l by lia.
      assert (Q : firstn (S k) radii = firstn k radii ++ [r_k * Rsun]). { clearbody radii. clear - E. revert radii E. induction k as [|k IH]; intros [|z q] E; try discriminate; [cbn in *; congruence|]. cbn [firstn app]. f_equal. apply IH. exact E. }
      rewrite Q. apply last_last. }
    rewrite LAST in G. assert (GI := f_equal (fun x => match x with Ok z => z | Raise _ => i end) G). cbn beta iota in GI. rewrite <- GI. cbn [M0 J0 a0]. split; [ring|]. split; [field; lra|reflexivity].
  - rewrite LENR, !firstn_length. unfold dens. rewrite map_length, rev_length, L2. unfold all in NL. rewrite map_length, rev_length in NL. lia.
  - rewrite LENR, !firstn_length, rev_length, L3. unfold all in NL. rewrite map_length, rev_length in NL. lia.
  - intros y I. apply FI, FI in I. unfold dens in I. apply in_map_iff in I. destruct I as (z & <- & I). rewrite (HR z); [reflexivity|]. apply in_rev. exact I.
  - intros y I. apply FI, FI in I. apply HO. apply in_rev. exact I.
Qed.
Print Assumptions C127_centre.
Example C127_centre_case : well_formed fast /\ (forall K xs, exact_rule (map (fun x => K * x ^ 4) xs) xs = K * (last xs 0 ^ 5 / 5)) /\ (forall y, In y (logRho fast) -> y = 0) /\ (forall y, In y (omega fast) -> y = 1) /\ 0 < nth 0 (enclosed fast) 0.
Proof. split; [exact fast_ok|]. split; [exact exact_rule_exact|]. split; [intros y [<-|[<-|[<-|[]]]]; reflexivity|]. split; [intros y [<-|[<-|[<-|[]]]]; reflexivity|]. cbn. lra. Qed.
