(** Detection probabilities of mergers (C150) *)
From Coq Require Import String List Bool Reals ZArith Lra Lia Permutation R_Ifp.
From Verif Require Import PyBase TransModel.
Import ListNotations.
Open Scope string_scope.
Open Scope R_scope.
Open Scope list_scope.

Lemma insert_perm p l : Permutation (p :: l) (insert p l).
Proof. induction l as [|x l IH]; [reflexivity|]. cbn. destruct (Rle_dec (fst p) (fst x)); [reflexivity|]. etransitivity; [apply perm_swap|]. constructor. exact IH. Qed.
Lemma sorted_perm l : Permutation l (sorted l).
Proof. induction l as [|x l IH]; [constructor|]. cbn. etransitivity; [constructor; exact IH|]. apply insert_perm. Qed.
Inductive ordered : list (R * R) -> Prop := ord_nil : ordered [] | ord_cons p l : (forall x, In x l -> fst p <= fst x) -> ordered l -> ordered (p :: l).
Lemma insert_ordered p l : ordered l -> ordered (insert p l).
Proof.
  induction 1 as [|x l H O IH]; cbn; [constructor; [intros ? []|constructor]|]. destruct (Rle_dec (fst p) (fst x)) as [L|L]; [constructor; [intros y [<-|I]; [exact L|specialize (H y I); lra]|constructor; assumption]|]. constructor; [|exact IH]. intros y I. apply (Permutation_in _ (Permutation_sym (insert_perm p l))) in I. destruct I as [<-|I]; [lra|exact (H y I)].
Qed.
Lemma sorted_ordered l : ordered (sorted l).
Proof. induction l as [|x l IH]; cbn; [constructor|apply insert_ordered; exact IH]. Qed.
Lemma ordered_parts n l : ordered l -> forall x y, In x (firstn n l) -> In y (skipn n l) -> fst x <= fst y.
Proof.
  intro O. revert n. induction O as [|p l H O IH]; intros [|n] x y I J; try contradiction. cbn [firstn skipn] in *. destruct I as [<-|I]; [|exact (IH n x y I J)]. apply H. rewrite <- (firstn_skipn n l). apply in_or_app. right. exact J.
Qed.
Lemma sum_bounds ws l lo hi : length ws = length l -> (forall w, In w ws -> 0 <= w) -> (forall p : R * R, In p l -> lo <= snd p <= hi) -> lo * sum ws <= sum (map (fun wp => fst wp * snd (snd wp)) (combine ws l)) <= hi * sum ws.
Proof.
  revert l. induction ws as [|w ws IH]; intros [|p l] L W B; cbn in L; try lia; [cbn; lra|]. specialize (IH l ltac:(lia) (fun x i => W x (or_intror i)) (fun x i => B x (or_intror i))). specialize (W w (or_introl eq_refl)). specialize (B p (or_introl eq_refl)). cbn [combine map sum fold_right fst snd] in *. fold (sum ws) in *. unfold sum in *. nra.
Qed.
Lemma sum_nonneg l : (forall x, In x l -> 0 <= x) -> 0 <= sum l.
Proof. induction l as [|x l IH]; intro H; [cbn; lra|]. pose proof (H x (or_introl eq_refl)). specialize (IH (fun y i => H y (or_intror i))). cbn. unfold sum in *. lra. Qed.
Lemma sum_pos l : (forall x, In x l -> 0 <= x) -> (exists x, In x l /\ 0 < x) -> 0 < sum l.
Proof.
  induction l as [|x l IH]; intros H [y [I P]]; [contradiction|]. pose proof (H x (or_introl eq_refl)). pose proof (sum_nonneg l (fun y i => H y (or_intror i))). cbn. unfold sum in *. destruct I as [->|I]; [lra|]. specialize (IH (fun y i => H y (or_intror i)) (ex_intro _ y (conj I P))). lra.
Qed.
Lemma weights_length l : length (weights l) = length l.
Proof. unfold weights. destruct (existsb _ l); apply map_length. Qed.
Lemma zero_spec l : existsb (fun p : R * R => if Req_EM_T (fst p) 0 then true else false) l = true <-> exists p, In p l /\ fst p = 0.
Proof. rewrite existsb_exists. split; intros (p & I & H); exists p; (split; [exact I|]); destruct (Req_EM_T (fst p) 0); try assumption; try reflexivity; [discriminate|contradiction]. Qed.
Lemma weights_facts l : l <> [] -> (forall p, In p l -> 0 <= fst p) -> (forall w, In w (weights l) -> 0 <= w) /\ 0 < sum (weights l).
Proof.
  intros N H. unfold weights. destruct (existsb _ l) eqn:E.
  - apply zero_spec in E as (p & I & Z). assert (A : forall w, In w (map (fun p : R * R => if Req_EM_T (fst p) 0 then 1 else 0) l) -> 0 <= w) by (intros w J; apply in_map_iff in J as (x & <- & _); destruct (Req_EM_T (fst x) 0); lra). split; [exact A|]. apply sum_pos; [exact A|]. exists 1. split; [|lra]. apply in_map_iff. exists p. split; [destruct (Req_EM_T (fst p) 0); [reflexivity|contradiction]|exact I].
  - assert (P : forall p, In p l -> 0 < 1 / fst p). { intros p I. specialize (H p I). assert (fst p <> 0). { intro Z. assert (X : existsb (fun p : R * R => if Req_EM_T (fst p) 0 then true else false) l = true) by (apply zero_spec; exists p; auto). congruence. } unfold Rdiv. rewrite Rmult_1_l. apply Rinv_0_lt_compat. lra. }
    assert (A : forall w, In w (map (fun p : R * R => 1 / fst p) l) -> 0 < w) by (intros w J; apply in_map_iff in J as (x & <- & J); apply P; exact J). split; [intros w J; apply Rlt_le, A; exact J|]. apply sum_pos; [intros w J; apply Rlt_le, A; exact J|]. destruct l as [|p l]; [congruence|]. exists (1 / fst p). split; [left; reflexivity|apply P; left; reflexivity].
Qed.
Lemma mean_bounds l lo hi : l <> [] -> (forall p, In p l -> 0 <= fst p) -> (forall p, In p l -> lo <= snd p <= hi) -> lo <= mean l <= hi.
Proof.
  intros N H B. destruct (weights_facts l N H) as [W S]. pose proof (sum_bounds (weights l) l lo hi (weights_length l) W B) as [A C]. unfold mean. assert (IV : 0 < / sum (weights l)) by (apply Rinv_0_lt_compat; exact S). unfold Rdiv. split; [apply (Rmult_le_reg_r (sum (weights l))); [exact S|]; rewrite Rmult_assoc, Rinv_l by lra; lra|apply (Rmult_le_reg_r (sum (weights l))); [exact S|]; rewrite Rmult_assoc, Rinv_l by lra; lra].
Qed.
Lemma dist_nonneg a b : 0 <= dist a b. Proof. apply sqrt_pos. Qed.
Lemma dist_zero a b : dist a b = 0 <-> a = b.
Proof.
  split.
  - unfold dist. intro H. pose proof (pow2_ge_0 (p1 a - p1 b)). pose proof (pow2_ge_0 (p2 a - p2 b)). pose proof (pow2_ge_0 (p3 a - p3 b)). pose proof (pow2_ge_0 (p4 a - p4 b)). apply sqrt_eq_0 in H; [|lra]. assert (E : forall x, x ^ 2 <= 0 -> x = 0) by (intros x Hx; assert (x * x = 0) by (pose proof (pow2_ge_0 x); lra); apply Rmult_integral in H4 as [|]; assumption).
    pose proof (E (p1 a - p1 b) ltac:(lra)). pose proof (E (p2 a - p2 b) ltac:(lra)). pose proof (E (p3 a - p3 b) ltac:(lra)). pose proof (E (p4 a - p4 b) ltac:(lra)). destruct a, b. cbn in *. f_equal; lra.
  - intros ->. unfold dist. rewrite !Rminus_diag_eq by reflexivity. replace (0 ^ 2 + 0 ^ 2 + 0 ^ 2 + 0 ^ 2) with 0 by ring. apply sqrt_0.
Qed.
Lemma firstn_in {A} n (l : list A) x : In x (firstn n l) -> In x l.
Proof. intro I. rewrite <- (firstn_skipn n l). apply in_or_app. left. exact I. Qed.
Lemma neighbour_in grid s p : In p (neighbours grid s) -> exists g, In g grid /\ p = (dist (place_of grid (fst g)) (place_of grid s), snd g).
Proof. intro I. apply firstn_in in I. apply (Permutation_in _ (Permutation_sym (sorted_perm _))) in I. apply in_map_iff in I as (g & E & I). exists g. auto. Qed.
Lemma neighbours_nonempty grid s : grid <> [] -> neighbours grid s <> [].
Proof.
  intros N E. unfold neighbours in E. pose proof (Permutation_length (sorted_perm (map (fun g => (dist (place_of grid (fst g)) (place_of grid s), snd g)) grid))) as L. rewrite map_length in L. destruct (sorted _) as [|p l]; [destruct grid; [congruence|discriminate]|discriminate].
Qed.
Definition within_grid (lo hi : R) (grid : list (system * R)) : Prop := forall g, In g grid -> lo <= snd g <= hi.
Lemma predicted_within grid s lo hi : grid <> [] -> within_grid lo hi grid -> lo <= predicted grid s <= hi.
Proof.
  intros N W. apply mean_bounds; [apply neighbours_nonempty; exact N|intros p I; apply neighbour_in in I as (g & _ & ->); apply dist_nonneg|intros p I; apply neighbour_in in I as (g & I & ->); exact (W g I)].
Qed.
Definition probabilities (grid : list (system * R)) : Prop := (10 <= length grid)%nat /\ within_grid 0 1 grid.
Lemma predict_spec grid s : probabilities grid -> 0 < m1 s -> 0 < z s -> predict_pdet grid s = Ok (predicted grid s).
Proof.
  intros [L W] M Z. unfold predict_pdet. destruct (Rlt_dec 0 (m1 s)); [|contradiction]. destruct (Rlt_dec 0 (z s)); [|contradiction]. destruct (Nat.ltb_spec (length grid) 10); [lia|]. pose proof (predicted_within grid s 0 1 ltac:(intro E; rewrite E in L; cbn in L; lia) W). destruct (Rle_dec (predicted grid s) 1); [|lra]. destruct (Rle_dec 0 (predicted grid s)); [reflexivity|lra].
Qed.
(** ** Which sensitivities, and when it works *)
Theorem C150_unknown : forall grids sensitivity population, ~ In sensitivity ["O3actual_H1L1V1"; "O4low_H1L1V1"; "O4high_H1L1V1"; "design_H1L1V1"] -> DCO_detectability grids sensitivity population = Raise ValueError.
Proof.
  intros grids sens population N. unfold DCO_detectability. destruct (existsb (String.eqb sens) sensitivities) eqn:E; [|reflexivity]. exfalso. apply N. apply existsb_exists in E as (x & I & E). apply String.eqb_eq in E. subst. exact I.
Qed.
Definition usable (population : list (merger * list (num * R))) : Prop := forall g zw, In (g, zw) population -> 0 < mg_m1 g /\ forall red w, In (Some red, w) zw -> 0 < red.
Definition known (s : string) : Prop := In s ["O3actual_H1L1V1"; "O4low_H1L1V1"; "O4high_H1L1V1"; "design_H1L1V1"].
(** A grid with too few points is refused as soon as there is an event with a redshift *)
Lemma map_r_refuses {A B} (f : A -> result B) : forall l, (forall a, In a l -> (exists b, f a = Ok b) \/ f a = Raise ValueError) ->
  (exists a, In a l /\ f a = Raise ValueError) -> map_r f l = Raise ValueError.
Proof.
  induction l as [|a l IH]; intros H (x & I & X); [contradiction|]. cbn [map_r]. destruct (H a (or_introl eq_refl)) as [[b E]|E]; rewrite E; [|reflexivity].
  cbn [rbind]. destruct I as [-> |I]; [congruence|]. rewrite IH; [reflexivity|intros y J; apply H; now right|now exists x].
Qed.
Lemma map_r_total {A B} (f : A -> result B) : forall l, (forall a, In a l -> exists b, f a = Ok b) -> exists bs, map_r f l = Ok bs.
Proof.
  induction l as [|a l IH]; intros H; [now exists []|]. cbn [map_r]. destruct (H a (or_introl eq_refl)) as [b E]. rewrite E. cbn [rbind].
  destruct IH as [bs E2]; [intros x I; apply H; now right|]. rewrite E2. now eexists.
Qed.
Theorem C150_few : forall grids sensitivity population, known sensitivity -> (length (grids sensitivity) < 10)%nat ->
  (exists g zw red w, In (g, zw) population /\ In (Some red, w) zw) -> DCO_detectability grids sensitivity population = Raise ValueError.
Proof.
  intros grids sens population K L (g & zw & red & w & I & J). unfold DCO_detectability.
  assert (E : existsb (String.eqb sens) sensitivities = true) by (apply existsb_exists; exists sens; split; [exact K|apply String.eqb_refl]). rewrite E.
  assert (P : forall s, predict_pdet (grids sens) s = Raise ValueError).
  { intro s. unfold predict_pdet. destruct (Rlt_dec 0 (m1 s)), (Rlt_dec 0 (z s)); try reflexivity. destruct (Nat.ltb_spec (length (grids sens)) 10); [reflexivity|lia]. }
  assert (W : forall g x, fst x <> None -> weight (grids sens) g x = Raise ValueError).
  { intros g0 [[r|] v] N; [|now contradiction N]. unfold weight. cbn [fst]. now rewrite P. }
  assert (WS : forall g x, (exists b, weight (grids sens) g x = Ok b) \/ weight (grids sens) g x = Raise ValueError).
  { intros g0 [[r|] v]; [right; apply W; discriminate|left; now eexists]. }
  apply map_r_refuses.
  - intros [g0 l] _. cbn [fst snd]. destruct (existsb (fun x : num * R => match fst x with Some _ => true | None => false end) l) eqn:X.
    + right. apply existsb_exists in X as (x & IX & X). apply map_r_refuses; [intros y _; apply WS|]. exists x. split; auto. apply W. destruct (fst x); discriminate.
    + left. apply map_r_total. intros [[r|] v] IX; [|now eexists]. exfalso. assert (F : existsb (fun x : num * R => match fst x with Some _ => true | None => false end) l = true) by (apply existsb_exists; now exists (Some r, v)). congruence.
  - exists (g, zw). split; auto. cbn [fst snd]. apply map_r_refuses; [intros y _; apply WS|]. exists (Some red, w). split; auto. apply W. discriminate.
Qed.
Print Assumptions C150_few.
Example C150_few_example : known "design_H1L1V1" /\ (length ((fun _ => []) "design_H1L1V1" : list (system * R)) < 10)%nat /\
  exists g zw red w, In (g, zw) [(Merger 30 20 None None None None None None, [(None, 1); (Some 1, 2)])] /\ In (Some red, w) zw.
Proof.
  split; [unfold known; cbn; auto|]. split; [cbn; lia|]. do 4 eexists. split; [now left|]. right. now left.
Qed.
(** Weights of events with a redshift are multiplied by a probability, which lies between those of the grid, and is that of the grid at its points; other weights stay. *)
Definition at_grid (grid : list (system * R)) (g : merger) (red y : R) : Prop :=
  exists s, In (s, y) grid /\ place_of grid s = place_of grid (slice g red) /\ forall s' y', In (s', y') grid -> place_of grid s' = place_of grid (slice g red) -> y' = y.
Lemma predicted_exact grid s y : (exists s0, In (s0, y) grid /\ place_of grid s0 = place_of grid s) -> (forall s' y', In (s', y') grid -> place_of grid s' = place_of grid s -> y' = y) -> predicted grid s = y.
Proof.
  intros (s0 & I0 & E0) U. unfold predicted. set (l := neighbours grid s). assert (N : l <> []) by (apply neighbours_nonempty; intro E; rewrite E in I0; contradiction).
  assert (HZ : exists p, In p l /\ fst p = 0).
  { unfold l, neighbours in *. set (m := map (fun g => (dist (place_of grid (fst g)) (place_of grid s), snd g)) grid) in *. assert (IM : In (0, y) m) by (apply in_map_iff; exists (s0, y); split; [cbn; f_equal; apply dist_zero; exact E0|exact I0]). pose proof (sorted_ordered m) as O. pose proof (sorted_perm m) as P. destruct (sorted m) as [|p r]; [cbn in N; congruence|]. exists p. split; [left; reflexivity|]. assert (NN : 0 <= fst p). { assert (IP : In p m) by (apply (Permutation_in _ (Permutation_sym P)); left; reflexivity). apply in_map_iff in IP as (g & <- & _). apply dist_nonneg. }
    apply (Permutation_in _ P) in IM. inversion O as [|p' r' H O']; subst. destruct IM as [->|I]; [reflexivity|]. specialize (H _ I). cbn in H. lra. }
  assert (V : forall p, In p l -> fst p = 0 -> snd p = y). { intros p I Z. apply neighbour_in in I as (g & I & ->). cbn in Z |- *. apply dist_zero in Z. destruct g as [s' y']. exact (U s' y' I Z). }
  pose proof (proj2 (zero_spec l) HZ) as EX. assert (NN : forall p, In p l -> 0 <= fst p) by (intros p I; apply neighbour_in in I as (g & _ & ->); apply dist_nonneg). destruct (weights_facts l N NN) as [_ S]. unfold mean. assert (Q : sum (map (fun wp => fst wp * snd (snd wp)) (combine (weights l) l)) = y * sum (weights l)). { unfold weights. rewrite EX. clear - V. induction l as [|p l IH]; [cbn; ring|]. specialize (IH (fun x i => V x (or_intror i))). specialize (V p (or_introl eq_refl)). cbn [map combine sum fold_right fst snd] in *. unfold sum in *. destruct (Req_EM_T (fst p) 0) as [Z|Z]; [rewrite (V Z); lra|lra]. }
  rewrite Q. field. lra.
Qed.
Theorem C150_weights : forall grids sensitivity population, known sensitivity -> probabilities (grids sensitivity) -> usable population -> exists out, DCO_detectability grids sensitivity population = Ok out
  /\ Forall2 (fun gz ws => Forall2 (fun zw w => match fst zw with
       | None => w = snd zw
       | Some red => exists p, w = snd zw * p /\ 0 <= p <= 1 /\ (forall lo hi, within_grid lo hi (grids sensitivity) -> lo <= p <= hi) /\ (forall y, at_grid (grids sensitivity) (fst gz) red y -> p = y)
       end) (snd gz) ws) population out.
Proof.
  intros grids sens population K PG U. unfold DCO_detectability. assert (E : existsb (String.eqb sens) sensitivities = true) by (apply existsb_exists; exists sens; split; [exact K|apply String.eqb_refl]). rewrite E. set (grid := grids sens) in *. assert (NG : grid <> []) by (destruct PG as [L _]; intro X; rewrite X in L; cbn in L; lia).
  induction population as [|[g zws] population IH]; [exists []; split; [reflexivity|constructor]|]. destruct IH as (out & EO & FO); [intros g' zw' I; apply U; right; exact I|]. destruct (U g zws (or_introl eq_refl)) as [M Z]. cbn [map_r fst snd].
  assert (R : exists ws, map_r (weight grid g) zws = Ok ws /\ Forall2 (fun zw w => match fst zw with None => w = snd zw | Some red => exists p, w = snd zw * p /\ 0 <= p <= 1 /\ (forall lo hi, within_grid lo hi grid -> lo <= p <= hi) /\ (forall y, at_grid grid g red y -> p = y) end) zws ws).
  { clear - M Z PG NG. induction zws as [|[red w] zws IH]; [exists []; split; [reflexivity|constructor]|]. destruct IH as (ws & EW & FW); [intros r' w' I; apply (Z r' w'); right; exact I|]. destruct red as [red|].
    - specialize (Z red w (or_introl eq_refl)). cbn [map_r weight fst snd]. rewrite (predict_spec grid (slice g red) PG M Z). cbn [rbind]. rewrite EW. cbn [rbind]. eexists. split; [reflexivity|]. constructor; [|exact FW]. cbn [fst snd]. exists (predicted grid (slice g red)). split; [reflexivity|]. split; [apply predicted_within; [exact NG|apply PG]|]. split; [intros lo hi W; apply predicted_within; assumption|]. intros y (s & I & EP & UY). apply predicted_exact; [exists s; auto|exact UY].
    - cbn [map_r weight fst snd rbind]. rewrite EW. cbn [rbind]. eexists. split; [reflexivity|]. constructor; [reflexivity|exact FW]. }
  destruct R as (ws & EW & FW). rewrite EW. cbn [rbind]. rewrite EO. cbn [rbind]. eexists. split; [reflexivity|]. constructor; [exact FW|exact FO].
Qed.
Print Assumptions C150_weights.
(** The probability is the mean over the ten nearest points of the grid with the inverse distances as weights. *)
Theorem C150_nearest : forall grid s, (forall g, In g grid -> place_of grid (fst g) <> place_of grid s) -> (10 <= length grid)%nat ->
  exists near far, Permutation (map (fun g => (dist (place_of grid (fst g)) (place_of grid s), snd g)) grid) (near ++ far) /\ length near = 10%nat /\ (forall x y, In x near -> In y far -> fst x <= fst y)
  /\ predicted grid s * fold_right Rplus 0 (map (fun p => / fst p) near) = fold_right Rplus 0 (map (fun p => snd p / fst p) near).
Proof.
  intros grid s D L. set (m := map (fun g => (dist (place_of grid (fst g)) (place_of grid s), snd g)) grid). exists (firstn 10 (sorted m)), (skipn 10 (sorted m)). split; [rewrite firstn_skipn; apply sorted_perm|]. split; [apply firstn_length_le; rewrite <- (Permutation_length (sorted_perm m)); unfold m; rewrite map_length; exact L|]. split; [apply ordered_parts, sorted_ordered|].
  unfold predicted, neighbours. fold m. set (l := firstn 10 (sorted m)). assert (P : forall p, In p l -> 0 < fst p). { intros p I. apply firstn_in in I. apply (Permutation_in _ (Permutation_sym (sorted_perm m))) in I. apply in_map_iff in I as (g & <- & I). cbn. pose proof (dist_nonneg (place_of grid (fst g)) (place_of grid s)). destruct (Req_dec (dist (place_of grid (fst g)) (place_of grid s)) 0) as [Z|Z]; [apply dist_zero in Z; exfalso; exact (D g I Z)|lra]. }
  assert (NE : l <> []). { intro E. assert (length l = 10%nat) by (apply firstn_length_le; rewrite <- (Permutation_length (sorted_perm m)); unfold m; rewrite map_length; exact L). rewrite E in H. discriminate. }
  destruct (weights_facts l NE (fun p I => Rlt_le _ _ (P p I))) as [_ S]. assert (X : existsb (fun p : R * R => if Req_EM_T (fst p) 0 then true else false) l = false). { destruct (existsb _ l) eqn:E; [|reflexivity]. apply zero_spec in E as (p & I & Z). specialize (P p I). lra. }
  unfold mean. assert (W : weights l = map (fun p => / fst p) l). { unfold weights. rewrite X. apply map_ext. intro p. unfold Rdiv. ring. } rewrite W in *. fold (sum (map (fun p => / fst p) l)). assert (Q : sum (map (fun wp => fst wp * snd (snd wp)) (combine (map (fun p : R * R => / fst p) l) l)) = fold_right Rplus 0 (map (fun p => snd p / fst p) l)). { clear. induction l as [|p l IH]; [reflexivity|]. cbn [map combine sum fold_right fst snd]. unfold sum in IH. rewrite IH. unfold Rdiv. ring. }
  rewrite Q. field. lra.
Qed.
Print Assumptions C150_nearest.

(** ** The mass taken as that of the primary is that of star 1: the same merger with its stars exchanged can have another probability. *)
Lemma ip_int x y (H : x = IZR y) : Int_part x = y /\ frac_part x = 0.
Proof. subst. assert (E : Int_part (IZR y) = y). { unfold Int_part. rewrite <- (tech_up (IZR y) (y + 1)); [lia|rewrite plus_IZR; lra|rewrite plus_IZR; lra]. } split; [exact E|]. unfold frac_part. rewrite E. ring. Qed.
Lemma round5_exact x n : x * 100000 = IZR n -> round5 x = x.
Proof. intro H. unfold round5. destruct (ip_int _ _ H) as [E F]. rewrite E, F. destruct (Rlt_dec 0 (1 / 2)); [|lra]. rewrite <- H. field. Qed.
Definition exchanged (g : merger) : merger := Merger (mg_m2 g) (mg_m1 g) (mg_q g) (mg_chi g) (mg_a2 g) (mg_a1 g) (mg_t2 g) (mg_t1 g).
Definition A_ : system := System 10 0.1 1 0.
Definition B_ : system := System 100 0.1 1 0.
Definition C_ : system := System 10 1 10 1.
Definition clusters : list (system * R) := (C_, 0) :: repeat (A_, 0) 5 ++ repeat (B_, 1) 5.
Lemma rmin_val (l : list R) x a : (forall y, In y (x :: l) -> a <= y) -> In a (x :: l) -> rmin_list (x :: l) = a.
Proof.
  unfold rmin_list. revert x. induction l as [|y l IH]; intros x H I; [destruct I as [E|[]]; exact E|]. cbn [fold_left]. apply IH.
  - intros w [<-|J]; [apply Rmin_glb; apply H; cbn; tauto|apply H; cbn; tauto].
  - pose proof (H x (or_introl eq_refl)). pose proof (H y (or_intror (or_introl eq_refl))). destruct I as [->|[->|I]]; [left; apply Rmin_left; lra|left; apply Rmin_right; lra|right; exact I].
Qed.
Lemma rmax_val (l : list R) x a : (forall y, In y (x :: l) -> y <= a) -> In a (x :: l) -> rmax_list (x :: l) = a.
Proof.
  unfold rmax_list. revert x. induction l as [|y l IH]; intros x H I; [destruct I as [E|[]]; exact E|]. cbn [fold_left]. apply IH.
  - intros w [<-|J]; [apply Rmax_lub; apply H; cbn; tauto|apply H; cbn; tauto].
  - pose proof (H x (or_introl eq_refl)). pose proof (H y (or_intror (or_introl eq_refl))). destruct I as [->|[->|I]]; [left; apply Rmax_left; lra|left; apply Rmax_right; lra|right; exact I].
Qed.
Lemma clusters_bounds : bounds m1 clusters = (10, 100) /\ bounds q clusters = (0.1, 1) /\ bounds z clusters = (1, 10) /\ bounds chieff clusters = (0, 1).
Proof.
  assert (T : forall f a b n k, (forall s, s = A_ \/ s = B_ \/ s = C_ -> a <= f s <= b) -> (exists s, (s = A_ \/ s = B_ \/ s = C_) /\ f s = a) -> (exists s, (s = A_ \/ s = B_ \/ s = C_) /\ f s = b) -> a * 100000 = IZR n -> b * 100000 = IZR k -> bounds f clusters = (a, b)).
  { intros f a b n k H (sa & Ia & Ea) (sb & Ib & Eb) Ra Rb. unfold bounds, clusters. cbn [repeat app map fst]. rewrite (rmin_val _ _ a), (rmax_val _ _ b).
    - rewrite (round5_exact a n Ra), (round5_exact b k Rb). reflexivity.
    - intros y I. cbn in I. decompose [or] I; try contradiction; subst; apply H; tauto.
    - rewrite <- Eb. cbn. destruct Ib as [->|[->| ->]]; tauto.
    - intros y I. cbn in I. decompose [or] I; try contradiction; subst; apply H; tauto.
    - rewrite <- Ea. cbn. destruct Ia as [->|[->| ->]]; tauto. }
  split; [|split; [|split]].
  - apply (T m1 10 100 1000000%Z 10000000%Z); [intros s [->|[->| ->]]; cbn; lra|exists A_; cbn; tauto|exists B_; cbn; tauto|lra|lra].
  - apply (T q 0.1 1 10000%Z 100000%Z); [intros s [->|[->| ->]]; cbn; lra|exists A_; cbn; tauto|exists C_; cbn; tauto|lra|lra].
  - apply (T z 1 10 100000%Z 1000000%Z); [intros s [->|[->| ->]]; cbn; lra|exists A_; cbn; tauto|exists C_; cbn; tauto|lra|lra].
  - apply (T chieff 0 1 0%Z 100000%Z); [intros s [->|[->| ->]]; cbn; lra|exists A_; cbn; tauto|exists C_; cbn; tauto|lra|lra].
Qed.
Lemma ln10_pos : 0 < ln 10. Proof. rewrite <- ln_1. apply ln_increasing; lra. Qed.
Lemma clusters_places : p1 (place_of clusters A_) = 0 /\ p1 (place_of clusters B_) = 1 /\ p2 (place_of clusters A_) = 0 /\ p2 (place_of clusters B_) = 0 /\ p2 (place_of clusters C_) = 1.
Proof.
  destruct clusters_bounds as (E1 & E2 & E3 & E4). unfold place_of. cbv zeta. rewrite E1, E2, E3, E4. cbn [p1 p2 fst snd A_ B_ C_ m1 q]. pose proof ln10_pos as L. assert (L100 : log10 100 = 2). { unfold log10. replace 100 with (10 * 10) by lra. rewrite ln_mult by lra. field. lra. } assert (L10 : log10 10 = 1) by (unfold log10; field; lra). rewrite L100, L10. unfold normalize. repeat split; lra.
Qed.
Theorem C150_labels_refuted : exists grids g, probabilities (grids "design_H1L1V1") /\ 0 < mg_m1 g /\ 0 < mg_m2 g
  /\ DCO_detectability grids "design_H1L1V1" [(g, [(Some 1, 1)])] = Ok [[1]] /\ DCO_detectability grids "design_H1L1V1" [(exchanged g, [(Some 1, 1)])] = Ok [[0]].
Proof.
  destruct clusters_places as (PA1 & PB1 & PA2 & PB2 & PC2). exists (fun _ => clusters), (Merger 100 10 None None None None None None). assert (PG : probabilities clusters). { split; [cbn; lia|]. intros g I. unfold clusters in I. cbn in I. decompose [or] I; try contradiction; subst; cbn; lra. } split; [exact PG|]. cbn [mg_m1 mg_m2 exchanged mg_q mg_chi mg_a1 mg_a2 mg_t1 mg_t2]. split; [lra|]. split; [lra|].
  assert (S1 : slice (Merger 100 10 None None None None None None) 1 = B_). { unfold slice, mass_ratio, chi_eff, B_. cbn [mg_m1 mg_m2 mg_q mg_chi mg_a1 mg_a2 mg_t1 mg_t2 or0]. destruct (Rlt_dec 1 (10 / 100)); [lra|]. f_equal; lra. }
  assert (S2 : slice (Merger 10 100 None None None None None None) 1 = A_). { unfold slice, mass_ratio, chi_eff, A_. cbn [mg_m1 mg_m2 mg_q mg_chi mg_a1 mg_a2 mg_t1 mg_t2 or0]. destruct (Rlt_dec 1 (100 / 10)); [|lra]. f_equal; lra. }
  assert (QB : predicted clusters B_ = 1). { apply predicted_exact; [exists B_; split; [cbn; tauto|reflexivity]|]. intros s' y' I E. unfold clusters in I. cbn in I. assert (CA : place_of clusters A_ <> place_of clusters B_) by (intro X; rewrite X in PA1; lra). assert (CC : place_of clusters C_ <> place_of clusters B_) by (intro X; rewrite X in PC2; lra). decompose [or] I; try contradiction; match goal with H : _ = (s', y') |- _ => assert (s' = fst (s', y')) by reflexivity; rewrite <- H in * end; cbn [fst] in *; subst; try contradiction; congruence. }
  assert (QA : predicted clusters A_ = 0). { apply predicted_exact; [exists A_; split; [cbn; tauto|reflexivity]|]. intros s' y' I E. unfold clusters in I. cbn in I. assert (CA : place_of clusters B_ <> place_of clusters A_) by (intro X; rewrite X in PB1; lra). decompose [or] I; try contradiction; match goal with H : _ = (s', y') |- _ => assert (s' = fst (s', y')) by reflexivity; rewrite <- H in * end; cbn [fst] in *; subst; try contradiction; congruence. }
  unfold DCO_detectability. cbn [existsb sensitivities String.eqb Ascii.eqb Bool.eqb orb map_r fst snd weight]. change (exchanged (Merger 100 10 None None None None None None)) with (Merger 10 100 None None None None None None). rewrite S1, S2. rewrite (predict_spec clusters B_ PG) by (cbn; lra). rewrite (predict_spec clusters A_ PG) by (cbn; lra). rewrite QA, QB. cbn [rbind]. split; do 3 f_equal; lra.
Qed.
Print Assumptions C150_labels_refuted.
Example C150_case : probabilities clusters /\ usable [(Merger 100 10 None None None None None None, [(Some 1, 1); (None, 2)])] /\ known "design_H1L1V1".
Proof.
  split; [split; [cbn; lia|intros g I; unfold clusters in I; cbn in I; decompose [or] I; try contradiction; subst; cbn; lra]|]. split; [|cbn; tauto]. intros g zw [E|[]]. assert (g = Merger 100 10 None None None None None None /\ zw = [(Some 1, 1); (None, 2)]) as [-> ->] by (split; congruence). split; [cbn; lra|]. intros red w [E'|[E'|[]]]; [|discriminate]. assert (red = 1) by congruence. lra.
Qed.
