(** Interpolation between tracks of single stars (C134 to C137) *)
From Coq Require Import String List QArith Qabs Bool Lia Permutation Lqa.
From Verif Require Import PyBase PyList InterpModel InterpSpec InterpProofs InterpProps TrackGridModel.
Import ListNotations.
Open Scope string_scope.
Open Scope nat_scope.
Open Scope list_scope.

(** ** Neighbouring runs *)
(** [r] is the first run of the grid with its mass. *)
Definition first_of (grid : list run) (r : run) : Prop := exists before after, grid = before ++ r :: after /\ forall b, In b before -> ~ (r_mass b == r_mass r)%Q.
(** [lo] and [hi] enclose the mass [M], with nothing in between. *)
Definition enclose (grid : list run) (M : Q) (lo hi : run) : Prop :=
  first_of grid lo /\ first_of grid hi /\ (r_mass lo < M)%Q /\ (M < r_mass hi)%Q /\ forall r, In r grid -> (r_mass r <= r_mass lo)%Q \/ (r_mass hi <= r_mass r)%Q.
Definition between (grid : list run) (M : Q) : Prop :=
  (forall r, In r grid -> ~ (r_mass r == M)%Q) /\ (exists r, In r grid /\ (r_mass r < M)%Q) /\ (exists r, In r grid /\ (M < r_mass r)%Q).

Lemma first_in grid r : first_of grid r -> In r grid.
Proof. intros (b & a & -> & _). apply in_or_app. right. left. reflexivity. Qed.
Lemma filed_spec m grid : (exists r, In r grid /\ (r_mass r == m)%Q) -> exists r, filed m grid = Ok r /\ (r_mass r == m)%Q /\ first_of grid r.
Proof.
  unfold filed. induction grid as [|x grid IH]; intros (r & I & E); [contradiction|]. cbn [find]. destruct (Qeq_bool m (r_mass x)) eqn:Q.
  - exists x. split; [reflexivity|]. apply Qeq_bool_iff in Q. split; [symmetry; exact Q|]. exists [], grid. split; [reflexivity|intros b []].
  - assert (NX : ~ (r_mass x == m)%Q) by (intro C; assert (Qeq_bool m (r_mass x) = true) by (apply Qeq_bool_iff; symmetry; exact C); congruence). destruct I as [->|I]; [contradiction|]. destruct IH as (y & Y1 & Y2 & (b & a & Y3 & Y4)); [exists r; split; assumption|].
    exists y. split; [exact Y1|]. split; [exact Y2|]. exists (x :: b), a. split; [rewrite Y3; reflexivity|]. intros c [<-|C]; [intro C; apply NX; rewrite C; exact Y2|apply Y4; exact C].
Qed.
Lemma in_grid_iff M grid : in_grid M grid = true <-> exists r, In r grid /\ (r_mass r == M)%Q.
Proof.
  unfold in_grid, grid_mass. rewrite existsb_exists. split.
  - intros (x & I & E). apply in_map_iff in I as (r & <- & I). apply Qeq_bool_iff in E. exists r. split; [exact I|symmetry; exact E].
  - intros (r & I & E). exists (r_mass r). split; [apply in_map; exact I|apply Qeq_bool_iff; symmetry; exact E].
Qed.
Lemma in_grid_no M grid : in_grid M grid = false <-> forall r, In r grid -> ~ (r_mass r == M)%Q.
Proof. split; [intros H r I E; assert (in_grid M grid = true) by (apply in_grid_iff; eauto); congruence|]. intro H. destruct (in_grid M grid) eqn:E; [|reflexivity]. apply in_grid_iff in E as (r & I & E). exfalso. exact (H r I E). Qed.
Lemma fold_max l : forall x, In (fold_left (fun a b => if qlt a b then b else a) l x) (x :: l) /\ forall y, In y (x :: l) -> (y <= fold_left (fun a b => if qlt a b then b else a) l x)%Q.
Proof.
  induction l as [|b l IH]; intro x; cbn [fold_left]; [split; [left; reflexivity|intros y [<-|[]]; lra]|]. destruct (IH (if qlt x b then b else x)) as [I1 I2]. split.
  - destruct I1 as [E|I]; [destruct (qlt x b); rewrite <- E; cbn; auto|right; right; exact I].
  - assert (H : (x <= (if qlt x b then b else x) /\ b <= (if qlt x b then b else x))%Q) by (destruct (qlt x b) eqn:E; [apply qlt_true in E|apply qlt_false in E]; split; lra). destruct H as [H1 H2]. specialize (I2 _ (or_introl eq_refl)) as B. intros y [<-|[<-|I]]; [lra|lra|apply I2; right; exact I].
Qed.
Lemma fold_min l : forall x, In (fold_left (fun a b => if qlt b a then b else a) l x) (x :: l) /\ forall y, In y (x :: l) -> (fold_left (fun a b => if qlt b a then b else a) l x <= y)%Q.
Proof.
  induction l as [|b l IH]; intro x; cbn [fold_left]; [split; [left; reflexivity|intros y [<-|[]]; lra]|]. destruct (IH (if qlt b x then b else x)) as [I1 I2]. split.
  - destruct I1 as [E|I]; [destruct (qlt b x); rewrite <- E; cbn; auto|right; right; exact I].
  - assert (H : ((if qlt b x then b else x) <= x /\ (if qlt b x then b else x) <= b)%Q) by (destruct (qlt b x) eqn:E; [apply qlt_true in E|apply qlt_false in E]; split; lra). destruct H as [H1 H2]. specialize (I2 _ (or_introl eq_refl)) as B. intros y [<-|[<-|I]]; [lra|lra|apply I2; right; exact I].
Qed.
Lemma below_in M grid m : In m (below M grid) <-> exists r, In r grid /\ r_mass r = m /\ (m < M)%Q.
Proof. unfold below, grid_mass. rewrite filter_In, in_map_iff, qlt_true. split; [intros [(r & E & I) L]; eauto|intros (r & I & E & L); split; [eauto|exact L]]. Qed.
Lemma above_in M grid m : In m (above M grid) <-> exists r, In r grid /\ r_mass r = m /\ (M < m)%Q.
Proof. unfold above, grid_mass. rewrite filter_In, in_map_iff, qlt_true. split; [intros [(r & E & I) L]; eauto|intros (r & I & E & L); split; [eauto|exact L]]. Qed.
(** The next mass below, or none *)
Lemma max_below M grid : (below M grid = [] /\ (forall r, In r grid -> (M <= r_mass r)%Q)) \/
  exists m r, below M grid <> [] /\ np_max (below M grid) = Ok m /\ filed m grid = Ok r /\ (r_mass r == m)%Q /\ first_of grid r /\ (m < M)%Q /\ forall q, In q grid -> (r_mass q < M)%Q -> (r_mass q <= m)%Q.
Proof.
  destruct (below M grid) as [|x l] eqn:B.
  - left. split; [reflexivity|]. intros r I. destruct (Qlt_le_dec (r_mass r) M) as [L|L]; [|exact L]. exfalso. assert (H : In (r_mass r) (below M grid)) by (apply below_in; eauto). rewrite B in H. contradiction.
  - right. destruct (fold_max l x) as [I H]. cbn [np_max]. set (m := fold_left _ l x) in *. rewrite <- B in I, H. apply below_in in I as (r & I & E & L). destruct (filed_spec m grid) as (r' & F1 & F2 & F3); [exists r; split; [exact I|rewrite E; reflexivity]|].
    exists m, r'. split; [discriminate|]. split; [reflexivity|]. split; [exact F1|]. split; [exact F2|]. split; [exact F3|]. split; [exact L|]. intros q IQ LQ. apply H. apply below_in. eauto.
Qed.
Lemma min_above M grid : (above M grid = [] /\ (forall r, In r grid -> (r_mass r <= M)%Q)) \/
  exists m r, above M grid <> [] /\ np_min (above M grid) = Ok m /\ filed m grid = Ok r /\ (r_mass r == m)%Q /\ first_of grid r /\ (M < m)%Q /\ forall q, In q grid -> (M < r_mass q)%Q -> (m <= r_mass q)%Q.
Proof.
  destruct (above M grid) as [|x l] eqn:B.
  - left. split; [reflexivity|]. intros r I. destruct (Qlt_le_dec M (r_mass r)) as [L|L]; [|exact L]. exfalso. assert (H : In (r_mass r) (above M grid)) by (apply above_in; eauto). rewrite B in H. contradiction.
  - right. destruct (fold_min l x) as [I H]. cbn [np_min]. set (m := fold_left _ l x) in *. rewrite <- B in I, H. apply above_in in I as (r & I & E & L). destruct (filed_spec m grid) as (r' & F1 & F2 & F3); [exists r; split; [exact I|rewrite E; reflexivity]|].
    exists m, r'. split; [discriminate|]. split; [reflexivity|]. split; [exact F1|]. split; [exact F2|]. split; [exact F3|]. split; [exact L|]. intros q IQ LQ. apply H. apply above_in. eauto.
Qed.
Lemma neighbours_found grid M : between grid M -> exists low high lo hi, np_max (below M grid) = Ok low /\ np_min (above M grid) = Ok high /\ filed low grid = Ok lo /\ filed high grid = Ok hi /\ (r_mass lo == low)%Q /\ (r_mass hi == high)%Q /\ enclose grid M lo hi.
Proof.
  intros (N & (rl & Il & Ll) & (rh & Ih & Lh)). destruct (max_below M grid) as [[_ C]|(m & r & _ & M1 & M2 & M3 & M4 & M5 & M6)]; [exfalso; specialize (C rl Il); lra|]. destruct (min_above M grid) as [[_ C]|(m' & r' & _ & K1 & K2 & K3 & K4 & K5 & K6)]; [exfalso; specialize (C rh Ih); lra|].
  exists m, m', r, r'. split; [exact M1|]. split; [exact K1|]. split; [exact M2|]. split; [exact K2|]. split; [exact M3|]. split; [exact K3|]. split; [exact M4|]. split; [exact K4|]. split; [lra|]. split; [lra|].
  intros q IQ. destruct (Qlt_le_dec (r_mass q) M) as [L|L]; [left; specialize (M6 q IQ L); lra|]. right. assert (L2 : (M < r_mass q)%Q) by (specialize (N q IQ); destruct (Qle_lt_or_eq _ _ L) as [H|H]; [exact H|exfalso; apply N; symmetry; exact H]). specialize (K6 q IQ L2). lra.
Qed.

(** ** C134: time series *)
(** The columns of a run have the same length, which is positive. *)
Definition regular (r : run) : Prop := exists n, 0 < n /\ forall k, length (r_history r k) = n.
Definition rows (r : run) : nat := length (r_history r "age").
Lemma regular_rows r k : regular r -> length (r_history r k) = rows r /\ 0 < rows r.
Proof. intros (n & P & H). unfold rows. rewrite !H. auto. Qed.
(** The first row from which hydrogen burning gives 99 percent of the light; 0 if there is none. *)
Definition starts_at (c99 : Q) (L LH : nat -> Q) (n z : nat) : Prop :=
  (z < n /\ (c99 + L z <= LH z)%Q /\ forall i, i < z -> (LH i < c99 + L i)%Q) \/ (z = 0 /\ forall i, i < n -> (LH i < c99 + L i)%Q).
Lemma first_true_spec l : match first_true l with Some i => nth i l false = true /\ i < length l /\ forall j, j < i -> nth j l false = false | None => forall j, nth j l false = false end.
Proof.
  induction l as [|b l IH]; cbn [first_true]; [intros [|j]; reflexivity|]. destruct b; [split; [reflexivity|split; [cbn; lia|intros j J; lia]]|]. destruct (first_true l) as [i|]; cbn [option_map].
  - destruct IH as (I1 & I2 & I3). split; [exact I1|]. split; [cbn; lia|]. intros [|j] J; [reflexivity|]. apply I3. lia.
  - intros [|j]; [reflexivity|apply IH].
Qed.
Lemma i_zams_spec c99 L LH n : length L = n -> length LH = n -> 0 < n -> let z := i_zams c99 L LH in z < n /\ starts_at c99 (fun i => nth i L 0%Q) (fun i => nth i LH 0%Q) n z.
Proof.
  intros EL EH P z. unfold z, i_zams. set (bs := map _ (combine L LH)). assert (LB : length bs = n) by (unfold bs; rewrite map_length, combine_length; lia).
  assert (NB : forall i, i < n -> nth i bs false = Qle_bool (c99 + nth i L 0%Q) (nth i LH 0%Q)). { intros i I. unfold bs. rewrite (nth_indep _ false (Qle_bool (c99 + fst (0%Q, 0%Q)) (snd (0%Q, 0%Q)))) by (fold bs; lia). rewrite (map_nth (fun p => Qle_bool (c99 + fst p) (snd p))), combine_nth by lia. reflexivity. }
  pose proof (first_true_spec bs) as F. destruct (first_true bs) as [i|].
  - destruct F as (F1 & F2 & F3). split; [lia|]. left. split; [lia|]. split; [rewrite NB in F1 by lia; apply Qle_bool_iff; exact F1|]. intros j J. specialize (F3 j J). rewrite NB in F3 by lia. destruct (Qlt_le_dec (nth j LH 0%Q) (c99 + nth j L 0%Q)) as [Q|Q]; [exact Q|]. apply Qle_bool_iff in Q. congruence.
  - split; [lia|]. right. split; [reflexivity|]. intros j J. specialize (F j). rewrite NB in F by lia. destruct (Qlt_le_dec (nth j LH 0%Q) (c99 + nth j L 0%Q)) as [Q|Q]; [exact Q|]. apply Qle_bool_iff in Q. congruence.
Qed.
Lemma finish_length key i k : length (finish key i k) = length k - i.
Proof. unfold finish. rewrite skipn_length. destruct (String.eqb key "age"); [rewrite map_length|]; reflexivity. Qed.
Lemma nth_skip {A} (d : A) z : forall l i, nth i (skipn z l) d = nth (z + i) l d.
Proof. induction z as [|z IH]; intros [|x l] i; cbn; try reflexivity; [destruct i; reflexivity|apply IH]. Qed.
Lemma finish_nth key z k i : z + i < length k -> nth i (finish key z k) 0%Q = if String.eqb key "age" then (nth (z + i) k 0 - nth z k 0)%Q else nth (z + i) k 0%Q.
Proof.
  intro L. unfold finish. rewrite nth_skip. destruct (String.eqb key "age"); [|reflexivity]. rewrite (nth_indep _ 0%Q (0 - nth z k 0)%Q) by (rewrite map_length; exact L). rewrite (map_nth (fun x => (x - nth z k 0)%Q)). reflexivity.
Qed.
Lemma mix_length w a b : length (mix w a b) = min (length a) (length b).
Proof. unfold mix. rewrite map_length, combine_length. reflexivity. Qed.
Lemma mix_nth w a b i : i < length a -> i < length b -> (nth i (mix w a b) 0 == (1 - w) * nth i a 0 + w * nth i b 0)%Q.
Proof.
  revert b i. induction a as [|x a IH]; intros [|y b] i LA LB; cbn in LA, LB; try lia. destruct i as [|i]; cbn; [ring|]. apply IH; lia.
Qed.
Lemma firstn_nth {A} (d : A) n l i : i < n -> nth i (firstn n l) d = nth i l d.
Proof. revert l i. induction n as [|n IH]; intros [|x l] [|i] H; cbn; try lia; try reflexivity. apply IH. lia. Qed.

(** Between two runs: all series have the same rows, from a common first one, and each value is the mean of those of the runs with weights by mass. *)
Theorem C134_series : forall c99 grid M, (forall r, In r grid -> regular r) -> between grid M ->
  exists lo hi z n w, enclose grid M lo hi /\ w = ((M - r_mass lo) / (r_mass hi - r_mass lo))%Q /\ (0 < w < 1)%Q /\ n = min (rows lo) (rows hi) /\ z < n /\
    let at_ k i := ((1 - w) * nth i (r_history lo k) 0 + w * nth i (r_history hi k) 0)%Q in
    starts_at c99 (at_ "log_L") (at_ "log_LH") n z /\
    forall key, exists l, get c99 grid key M = Ok l /\ length l = n - z /\
      forall i, z + i < n -> (nth i l 0 == at_ key (z + i)%nat - (if String.eqb key "age" then at_ key z else 0))%Q.
Proof.
  intros c99 grid M RG B. pose proof B as (NI & _). destruct (neighbours_found grid M B) as (low & high & lo & hi & E1 & E2 & E3 & E4 & E5 & E6 & EN). pose proof EN as (FL & FH & LL & LH & _).
  assert (Rl : regular lo) by (apply RG, first_in, FL). assert (Rh : regular hi) by (apply RG, first_in, FH). set (n := min (rows lo) (rows hi)). set (w0 := ((M - low) / (high - low))%Q). set (w := ((M - r_mass lo) / (r_mass hi - r_mass lo))%Q).
  assert (WW : (w0 == w)%Q) by (unfold w, w0; rewrite E5, E6; reflexivity). assert (W : (0 < w < 1)%Q). { unfold w. split; [apply Qlt_shift_div_l; lra|apply Qlt_shift_div_r; lra]. }
  set (mixed := fun k => mix w0 (firstn n (r_history lo k)) (firstn n (r_history hi k))).
  assert (ML : forall k, length (mixed k) = n). { intro k. unfold mixed. rewrite mix_length, !firstn_length. destruct (regular_rows lo k Rl), (regular_rows hi k Rh). lia. }
  assert (MN : forall k i, i < n -> (nth i (mixed k) 0 == (1 - w) * nth i (r_history lo k) 0 + w * nth i (r_history hi k) 0)%Q). { intros k i I. unfold mixed. destruct (regular_rows lo k Rl), (regular_rows hi k Rh). rewrite mix_nth by (rewrite firstn_length; lia). rewrite !firstn_nth by exact I. rewrite WW. reflexivity. }
  destruct (i_zams_spec c99 (mixed "log_L") (mixed "log_LH") n (ML _) (ML _)) as [Z1 Z2]; [unfold n; destruct (regular_rows lo "age" Rl), (regular_rows hi "age" Rh); lia|]. set (z := i_zams c99 (mixed "log_L") (mixed "log_LH")) in *.
  exists lo, hi, z, n, w. split; [exact EN|]. split; [reflexivity|]. split; [exact W|]. split; [reflexivity|]. split; [exact Z1|]. cbv zeta. split.
  - destruct Z2 as [(A & C & D)|(A & D)]; [left; split; [exact A|]; split; [rewrite <- !MN by exact A; exact C|]; intros i I; rewrite <- !MN by lia; apply D; exact I|right; split; [exact A|]; intros i I; rewrite <- !MN by exact I; apply D; exact I].
  - intro key. exists (finish key z (mixed key)). split.
    + unfold get. apply in_grid_no in NI. rewrite NI, E1. cbn [rbind]. rewrite E2. cbn [rbind]. rewrite E3. cbn [rbind]. rewrite E4. cbn [rbind].
      replace (min (length (r_history lo key)) (length (r_history hi key))) with n by (unfold n; destruct (regular_rows lo key Rl) as [-> _], (regular_rows hi key Rh) as [-> _]; reflexivity). reflexivity.
    + split; [rewrite finish_length, ML; reflexivity|]. intros i I. rewrite finish_nth by (rewrite ML; exact I). destruct (String.eqb key "age"); rewrite !MN by lia; ring.
Qed.
Print Assumptions C134_series.
(** At a mass of the grid: the first run with this mass itself. *)
Theorem C134_exact : forall c99 grid M, (forall r, In r grid -> regular r) -> (exists r, In r grid /\ (r_mass r == M)%Q) ->
  exists r z, first_of grid r /\ (r_mass r == M)%Q /\ z < rows r /\ starts_at c99 (fun i => nth i (r_history r "log_L") 0%Q) (fun i => nth i (r_history r "log_LH") 0%Q) (rows r) z /\
    forall key, exists l, get c99 grid key M = Ok l /\ length l = rows r - z /\
      forall i, z + i < rows r -> (nth i l 0 == nth (z + i) (r_history r key) 0 - (if String.eqb key "age" then nth z (r_history r key) 0 else 0))%Q.
Proof.
  intros c99 grid M RG EX. destruct (filed_spec M grid EX) as (r & F1 & F2 & F3). assert (RR : regular r) by (apply RG, first_in, F3). destruct (regular_rows r "log_L" RR) as [L1 P]. destruct (regular_rows r "log_LH" RR) as [L2 _].
  destruct (i_zams_spec c99 _ _ (rows r) L1 L2 P) as [Z1 Z2]. exists r, (i_zams c99 (r_history r "log_L") (r_history r "log_LH")). split; [exact F3|]. split; [exact F2|]. split; [exact Z1|]. split; [exact Z2|]. intro key. eexists. split; [unfold get; apply in_grid_iff in EX; rewrite EX, F1; reflexivity|].
  destruct (regular_rows r key RR) as [L _]. split; [rewrite finish_length, L; reflexivity|]. intros i I. rewrite finish_nth by lia. destruct (String.eqb key "age"); ring.
Qed.
Print Assumptions C134_exact.
Theorem C134_outside : forall c99 grid key M, (forall r, In r grid -> (r_mass r < M)%Q) \/ (forall r, In r grid -> (M < r_mass r)%Q) -> get c99 grid key M = Raise ValueError.
Proof.
  intros c99 grid key M H. unfold get. assert (NI : in_grid M grid = false) by (apply in_grid_no; intros r I E; destruct H as [H|H]; specialize (H r I); lra). rewrite NI.
  destruct (max_below M grid) as [[B _]|(m & r & _ & M1 & _ & E & F & L & _)]; [rewrite B; reflexivity|]. rewrite M1. cbn [rbind].
  destruct (min_above M grid) as [[A _]|(m' & r' & _ & K1 & _ & E' & F' & L' & _)]; [rewrite A; reflexivity|]. exfalso. destruct H as [H|H]; [specialize (H r' (first_in _ _ F'))|specialize (H r (first_in _ _ F))]; lra.
Qed.
Print Assumptions C134_outside.
(** Ages begin at 0 and do not decrease if those of the runs do not. *)
Definition nondecreasing (l : list Q) : Prop := forall i j, i <= j -> j < length l -> (nth i l 0 <= nth j l 0)%Q.
Theorem C134_age : forall c99 grid M, (forall r, In r grid -> regular r /\ nondecreasing (r_history r "age")) -> between grid M \/ (exists r, In r grid /\ (r_mass r == M)%Q) ->
  exists l, get c99 grid "age" M = Ok l /\ l <> [] /\ (nth 0 l 0 == 0)%Q /\ nondecreasing l.
Proof.
  intros c99 grid M RG [B|B].
  - destruct (C134_series c99 grid M (fun r I => proj1 (RG r I)) B) as (lo & hi & z & n & w & EN & _ & W & EN2 & Z & H). cbv zeta in H. destruct H as [_ H]. destruct (H "age") as (l & E & L & V). exists l. split; [exact E|]. split; [intros ->; cbn in L; lia|]. cbn [String.eqb Ascii.eqb Bool.eqb] in V.
    split; [rewrite (V 0) by lia; rewrite Nat.add_0_r; ring|]. intros i j IJ J. rewrite (V i), (V j) by lia. destruct EN as (FL & FH & _). destruct (RG lo (first_in _ _ FL)) as [Rl Nl]. destruct (RG hi (first_in _ _ FH)) as [Rh Nh]. destruct (regular_rows lo "age" Rl) as [Ll _]. destruct (regular_rows hi "age" Rh) as [Lh _].
    specialize (Nl (z + i) (z + j) ltac:(lia) ltac:(lia)). specialize (Nh (z + i) (z + j) ltac:(lia) ltac:(lia)). set (a := nth (z + i) (r_history lo "age") 0%Q) in *. set (b := nth (z + j) (r_history lo "age") 0%Q) in *. set (c := nth (z + i) (r_history hi "age") 0%Q) in *. set (d := nth (z + j) (r_history hi "age") 0%Q) in *.
    assert (0 <= (1 - w) * (b - a) /\ 0 <= w * (d - c))%Q as [H1 H2] by (split; apply Qmult_le_0_compat; lra). lra.
  - destruct (C134_exact c99 grid M (fun r I => proj1 (RG r I)) B) as (r & z & F & _ & Z & _ & H). destruct (H "age") as (l & E & L & V). exists l. split; [exact E|]. split; [intros ->; cbn in L; lia|]. cbn [String.eqb Ascii.eqb Bool.eqb] in V.
    split; [rewrite (V 0) by lia; rewrite Nat.add_0_r; ring|]. intros i j IJ J. rewrite (V i), (V j) by lia. destruct (RG r (first_in _ _ F)) as [Rr Nr]. destruct (regular_rows r "age" Rr) as [Lr _]. specialize (Nr (z + i) (z + j) ltac:(lia) ltac:(lia)). lra.
Qed.
Print Assumptions C134_age.

(** A grid for examples: columns by name, 0 elsewhere *)
Definition column (n : nat) (l : list (string * list Q)) (k : string) : list Q := match find (fun p => String.eqb (fst p) k) l with Some p => snd p | None => repeat 0%Q n end.
Definition star1 : run := Run (column 3 [("mass", [1; 1; 1]); ("age", [0; 10; 30]); ("log_L", [2; 1; 1]); ("log_LH", [0; 1; 1]); ("log_R", [3; 1; 2])]%Q) (fun _ => Some 1%Q) (fun _ => "WD") (column 3 [("mass", [1; 1 # 2; 1 # 10]); ("logRho", [1; 2; 3])]%Q).
Definition star2 : run := Run (column 2 [("mass", [3; 3]); ("age", [0; 4]); ("log_L", [3; 2]); ("log_LH", [0; 2]); ("log_R", [5; 3])]%Q) (fun _ => None) (fun _ => "NS") (column 2 [("mass", [3; 3 # 5]); ("logRho", [2; 6])]%Q).
Definition star3 : run := Run (column 2 [("mass", [5; 5]); ("age", [0; 2]); ("log_L", [3; 2]); ("log_LH", [0; 2]); ("log_R", [5; 3])]%Q) (fun _ => Some 9%Q) (fun _ => "BH") (column 2 [("mass", [5; 1 # 2]); ("logRho", [3; 7])]%Q).
Example C134_case : let grid := [star1; star2; star3] in (forall r, In r grid -> regular r) /\ between grid 2 /\ option_map (map Qred) (match get (-(1 # 100)) grid "log_R" 2 with Ok l => Some l | _ => None end) = Some [2%Q] /\ option_map (map Qred) (match get (-(1 # 100)) grid "age" 1 with Ok l => Some l | _ => None end) = Some [0; 20]%Q.
Proof.
  cbv zeta. assert (RC : forall n l, 0 < n -> (forall p, In p l -> length (snd p) = n) -> forall k, length (column n l k) = n). { intros n l P H k. unfold column. destruct (find _ l) eqn:F; [apply find_some in F as [F _]; apply H; exact F|apply repeat_length]. }
  split; [|split; [|split; vm_compute; reflexivity]].
  - intros r [<-|[<-|[<-|[]]]]; [exists 3|exists 2|exists 2]; (split; [lia|]); intro k; apply RC; try lia; intros p P; cbn in P; repeat (destruct P as [<-|P]; [reflexivity|]); contradiction.
  - split; [intros r [<-|[<-|[<-|[]]]] E; discriminate E|]. split; [exists star1|exists star2]; (split; [cbn; auto|reflexivity]).
Qed.
(** The series of masses close to one of the grid need not come close to that of the grid: they end with the shorter run. *)
Theorem C134_jump_refuted : (forall M, (1 < M < 3)%Q -> exists l, get (-(1 # 100)) [star1; star2] "age" M = Ok l /\ length l = 1) /\
  (exists l, get (-(1 # 100)) [star1; star2] "age" 1 = Ok l /\ length l = 2) /\
  ~ (forall grid, (forall r, In r grid -> regular r) -> forall r0, In r0 grid -> exists eps, (0 < eps)%Q /\ forall M l l0, (r_mass r0 < M < r_mass r0 + eps)%Q -> get (-(1 # 100)) grid "age" (r_mass r0) = Ok l0 -> get (-(1 # 100)) grid "age" M = Ok l -> length l = length l0).
Proof.
  destruct C134_case as [RG _]. assert (RG2 : forall r, In r [star1; star2] -> regular r) by (intros r I; apply RG; cbn in *; tauto).
  assert (A : forall M, (1 < M < 3)%Q -> exists l, get (-(1 # 100)) [star1; star2] "age" M = Ok l /\ length l = 1).
  { intros M [L U]. assert (B : between [star1; star2] M). { assert (m1 : r_mass star1 = 1%Q) by reflexivity. assert (m2 : r_mass star2 = 3%Q) by reflexivity. split; [intros r [<-|[<-|[]]] E; [rewrite m1 in E|rewrite m2 in E]; lra|]. split; [exists star1; split; [cbn; auto|rewrite m1; lra]|exists star2; split; [cbn; auto|rewrite m2; lra]]. }
    destruct (C134_series (-(1 # 100)) [star1; star2] M RG2 B) as (lo & hi & z & n & w & EN & EW & W & EN2 & Z & H). cbv zeta in H. destruct H as [ST H]. destruct (H "age") as (l & E & LEN & _). exists l. split; [exact E|].
    assert (lo = star1 /\ hi = star2) as [-> ->]. { destruct EN as (FL & FH & LL & LH & _). assert (m1 : r_mass star1 = 1%Q) by reflexivity. assert (m2 : r_mass star2 = 3%Q) by reflexivity. apply first_in in FL, FH. split; [destruct FL as [<-|[<-|[]]]; [reflexivity|rewrite m2 in LL; exfalso; lra]|destruct FH as [<-|[<-|[]]]; [rewrite m1 in LH; exfalso; lra|reflexivity]]. }
    change (min (rows star1) (rows star2)) with 2 in EN2. subst n. assert (z = 1); [|lia]. destruct ST as [(Z1 & C & D)|(Z1 & D)].
    - destruct z as [|z]; [|lia]. exfalso. cbn in C. lra.
    - exfalso. specialize (D 1 ltac:(lia)). cbn in D. lra. }
  assert (B : exists l, get (-(1 # 100)) [star1; star2] "age" 1 = Ok l /\ length l = 2) by (eexists; split; [vm_compute; reflexivity|reflexivity]).
  split; [exact A|]. split; [exact B|]. intro H. destruct (H [star1; star2] RG2 star1 (or_introl eq_refl)) as (eps & P & HE). destruct B as (l0 & B1 & B2). assert (m1 : r_mass star1 = 1%Q) by reflexivity. rewrite m1 in HE.
  set (M := (1 + (if Qlt_le_dec eps 1 then eps else 1) / 2)%Q). assert (HM : (1 < M /\ M < 3 /\ M < 1 + eps)%Q). { unfold M. destruct (Qlt_le_dec eps 1) as [Q|Q]; [assert (eps / 2 == eps * (1 # 2))%Q as -> by field; lra|assert (1 / 2 == 1 # 2)%Q as -> by reflexivity; lra]. }
  destruct (A M) as (l & A1 & A2); [lra|]. specialize (HE M l l0 ltac:(lra) B1 A1). congruence.
Qed.
Print Assumptions C134_jump_refuted.

(** ** C135: final values *)
Lemma first_unique grid r s : first_of grid r -> first_of grid s -> (r_mass r == r_mass s)%Q -> r = s.
Proof.
  intros (b & a & E & H) (b' & a' & E' & H') EQ. rewrite E in E'. clear E grid. revert b' H' E'. induction b as [|x b IH]; intros [|x' b'] H' E'; cbn in E'; inversion E'; subst.
  - reflexivity.
  - exfalso. apply (H' x' (or_introl eq_refl)). exact EQ.
  - exfalso. apply (H s (or_introl eq_refl)). symmetry. exact EQ.
  - apply (IH (fun c C => H c (or_intror C)) b'); [intros c C; apply H'; right; exact C|assumption].
Qed.
Lemma filter_short {A} (p : A -> bool) l : length (filter p l) <= length l.
Proof. induction l as [|x l IH]; cbn; [lia|]. destruct (p x); cbn; lia. Qed.
Lemma filter_shrinks {A} (p q : A -> bool) l x : In x l -> q x = true -> p x = false -> (forall y, p y = true -> q y = true) -> length (filter p l) < length (filter q l).
Proof.
  intros I Q P PQ. assert (G : forall k, length (filter p k) <= length (filter q k)). { induction k as [|y k IH]; [reflexivity|]. cbn. destruct (p y) eqn:E; [rewrite (PQ y E); cbn; lia|]. destruct (q y); cbn; lia. }
  induction l as [|y l IH]; [contradiction|]. destruct I as [->|I]; cbn; [rewrite Q, P; cbn; specialize (G l); lia|]. specialize (IH I). destruct (p y) eqn:E; [rewrite (PQ y E); cbn; lia|]. destruct (q y); cbn; lia.
Qed.
Lemma seek_low_spec grid key : forall n m, (exists r, In r grid /\ (r_mass r == m)%Q) -> length (below m grid) < n ->
  (exists m' r v, seek_low n grid key m = Ok (m', Some v) /\ first_of grid r /\ (r_mass r == m')%Q /\ r_final r key = Some v /\ (m' <= m)%Q /\ forall q, first_of grid q -> (m' < r_mass q <= m)%Q -> r_final q key = None) \/
  (exists m', seek_low n grid key m = Ok (m', None) /\ (m' <= m)%Q /\ forall q, first_of grid q -> (r_mass q <= m)%Q -> r_final q key = None).
Proof.
  induction n as [|n IH]; intros m EX L; [lia|]. destruct (filed_spec m grid EX) as (r & F1 & F2 & F3). cbn [seek_low]. rewrite F1. cbn [rbind]. destruct (r_final r key) as [v|] eqn:V.
  - left. exists m, r, v. split; [reflexivity|]. split; [exact F3|]. split; [exact F2|]. split; [exact V|]. split; [lra|]. intros q FQ H. lra.
  - assert (SAME : forall q, first_of grid q -> (r_mass q == m)%Q -> r_final q key = None) by (intros q FQ EQ; rewrite (first_unique grid q r FQ F3); [exact V|rewrite EQ, F2; reflexivity]).
    destruct (max_below m grid) as [[B H]|(m1 & r1 & NB & M1 & M2 & M3 & M4 & M5 & M6)].
    + rewrite B. right. exists m. split; [reflexivity|]. split; [lra|]. intros q FQ LQ. apply SAME; [exact FQ|]. specialize (H q (first_in _ _ FQ)). lra.
    + destruct (below m grid) as [|b0 bs] eqn:EB; [contradiction|]. rewrite <- EB in *. rewrite M1. cbn [rbind].
      assert (LT : length (below m1 grid) < n). { assert (length (below m1 grid) < length (below m grid)); [|lia]. unfold below. apply (filter_shrinks _ _ _ (r_mass r1)); [apply in_map, first_in, M4|apply qlt_true; lra|apply qlt_false; lra|intros y Y; apply qlt_true in Y; apply qlt_true; lra]. }
      assert (CASES : forall q, In q grid -> (r_mass q <= m)%Q -> (r_mass q == m)%Q \/ (r_mass q <= m1)%Q). { intros q IQ LQ. destruct (Qle_lt_or_eq _ _ LQ) as [H|H]; [right; apply M6; assumption|left; exact H]. }
      destruct (IH m1) as [(m' & r' & v & E & H1 & H2 & H3 & H4 & H5)|(m' & E & H1 & H2)]; [exists r1; split; [apply first_in, M4|exact M3]|exact LT| |].
      * left. exists m', r', v. split; [exact E|]. split; [exact H1|]. split; [exact H2|]. split; [exact H3|]. split; [lra|]. intros q FQ LQ. destruct (CASES q (first_in _ _ FQ) ltac:(lra)) as [C|C]; [apply SAME; assumption|apply H5; [exact FQ|lra]].
      * right. exists m'. split; [exact E|]. split; [lra|]. intros q FQ LQ. destruct (CASES q (first_in _ _ FQ) LQ) as [C|C]; [apply SAME; assumption|apply H2; [exact FQ|lra]].
Qed.
Lemma seek_high_spec grid key : forall n m, (exists r, In r grid /\ (r_mass r == m)%Q) -> length (above m grid) < n ->
  (exists m' r v, seek_high n grid key m = Ok (m', Some v) /\ first_of grid r /\ (r_mass r == m')%Q /\ r_final r key = Some v /\ (m <= m')%Q /\ forall q, first_of grid q -> (m <= r_mass q < m')%Q -> r_final q key = None) \/
  (exists m', seek_high n grid key m = Ok (m', None) /\ (m <= m')%Q /\ forall q, first_of grid q -> (m <= r_mass q)%Q -> r_final q key = None).
Proof.
  induction n as [|n IH]; intros m EX L; [lia|]. destruct (filed_spec m grid EX) as (r & F1 & F2 & F3). cbn [seek_high]. rewrite F1. cbn [rbind]. destruct (r_final r key) as [v|] eqn:V.
  - left. exists m, r, v. split; [reflexivity|]. split; [exact F3|]. split; [exact F2|]. split; [exact V|]. split; [lra|]. intros q FQ H. lra.
  - assert (SAME : forall q, first_of grid q -> (r_mass q == m)%Q -> r_final q key = None) by (intros q FQ EQ; rewrite (first_unique grid q r FQ F3); [exact V|rewrite EQ, F2; reflexivity]).
    destruct (min_above m grid) as [[B H]|(m1 & r1 & NB & M1 & M2 & M3 & M4 & M5 & M6)].
    + rewrite B. right. exists m. split; [reflexivity|]. split; [lra|]. intros q FQ LQ. apply SAME; [exact FQ|]. specialize (H q (first_in _ _ FQ)). lra.
    + destruct (above m grid) as [|b0 bs] eqn:EB; [contradiction|]. rewrite <- EB in *. rewrite M1. cbn [rbind].
      assert (LT : length (above m1 grid) < n). { assert (length (above m1 grid) < length (above m grid)); [|lia]. unfold above. apply (filter_shrinks _ _ _ (r_mass r1)); [apply in_map, first_in, M4|apply qlt_true; lra|apply qlt_false; lra|intros y Y; apply qlt_true in Y; apply qlt_true; lra]. }
      assert (CASES : forall q, In q grid -> (m <= r_mass q)%Q -> (r_mass q == m)%Q \/ (m1 <= r_mass q)%Q). { intros q IQ LQ. destruct (Qle_lt_or_eq _ _ LQ) as [H|H]; [right; apply M6; assumption|left; symmetry; exact H]. }
      destruct (IH m1) as [(m' & r' & v & E & H1 & H2 & H3 & H4 & H5)|(m' & E & H1 & H2)]; [exists r1; split; [apply first_in, M4|exact M3]|exact LT| |].
      * left. exists m', r', v. split; [exact E|]. split; [exact H1|]. split; [exact H2|]. split; [exact H3|]. split; [lra|]. intros q FQ LQ. destruct (CASES q (first_in _ _ FQ) ltac:(lra)) as [C|C]; [apply SAME; assumption|apply H5; [exact FQ|lra]].
      * right. exists m'. split; [exact E|]. split; [lra|]. intros q FQ LQ. destruct (CASES q (first_in _ _ FQ) LQ) as [C|C]; [apply SAME; assumption|apply H2; [exact FQ|lra]].
Qed.
(** The nearest runs with a value below and above *)
Definition nearest_low (grid : list run) (key : string) (M : Q) (r : run) (v : Q) : Prop :=
  first_of grid r /\ (r_mass r < M)%Q /\ r_final r key = Some v /\ forall q, first_of grid q -> (r_mass r < r_mass q < M)%Q -> r_final q key = None.
Definition nearest_high (grid : list run) (key : string) (M : Q) (r : run) (v : Q) : Prop :=
  first_of grid r /\ (M < r_mass r)%Q /\ r_final r key = Some v /\ forall q, first_of grid q -> (M < r_mass q < r_mass r)%Q -> r_final q key = None.
Theorem C135_final : forall grid key M, between grid M ->
  (exists lo hi a b v, nearest_low grid key M lo a /\ nearest_high grid key M hi b /\ get_final_values grid key M = Ok (Some v) /\ (v == a + (M - r_mass lo) / (r_mass hi - r_mass lo) * (b - a))%Q) \/
  ((forall r, first_of grid r -> (r_mass r < M)%Q -> r_final r key = None) \/ (forall r, first_of grid r -> (M < r_mass r)%Q -> r_final r key = None)) /\ get_final_values grid key M = Ok None.
Proof.
  intros grid key M B. pose proof B as (NI & _). destruct (neighbours_found grid M B) as (low & high & lo & hi & E1 & E2 & E3 & E4 & E5 & E6 & EN). destruct EN as (FL & FH & LL & LH & GAP). unfold get_final_values. apply in_grid_no in NI as NI2. rewrite NI2, E1. cbn [rbind]. rewrite E2. cbn [rbind].
  assert (LE1 : length (below low grid) < S (length grid)) by (unfold below, grid_mass; pose proof (filter_short (fun m => qlt m low) (map r_mass grid)) as Q; rewrite map_length in Q; lia).
  assert (LE2 : length (above high grid) < S (length grid)) by (unfold above, grid_mass; pose proof (filter_short (fun m => qlt high m) (map r_mass grid)) as Q; rewrite map_length in Q; lia).
  pose proof (seek_low_spec grid key (S (length grid)) low (ex_intro _ lo (conj (first_in _ _ FL) E5)) LE1) as SL. pose proof (seek_high_spec grid key (S (length grid)) high (ex_intro _ hi (conj (first_in _ _ FH) E6)) LE2) as SH.
  destruct SL as [(m1 & r1 & v1 & S1 & S2 & S3 & S4 & S5 & S6)|(m1 & S1 & S2 & S3)]; rewrite S1; cbn [rbind].
  - destruct SH as [(m2 & r2 & v2 & T1 & T2 & T3 & T4 & T5 & T6)|(m2 & T1 & T2 & T3)]; rewrite T1; cbn [rbind].
    + left. set (v := (v1 + (M - m1) / (m2 - m1) * (v2 - v1))%Q). assert (EX : exists v', (if Qeq_bool ((M - m1) / (m2 - m1)) 0 || Qeq_bool (v2 - v1) 0 then Ok (Some v1) else Ok (Some v)) = Ok (Some v') /\ (v' == v)%Q).
      { destruct (Qeq_bool ((M - m1) / (m2 - m1)) 0) eqn:W; cbn [orb]; [apply Qeq_bool_iff in W; exists v1; split; [reflexivity|unfold v; rewrite W; ring]|]. destruct (Qeq_bool (v2 - v1) 0) eqn:D; [apply Qeq_bool_iff in D; exists v1; split; [reflexivity|unfold v; rewrite D; ring]|]. exists v. split; reflexivity. }
      destruct EX as (v' & EX1 & EX2). exists r1, r2, v1, v2, v'. split; [|split; [|split; [exact EX1|rewrite EX2; unfold v; rewrite S3, T3; reflexivity]]].
      * split; [exact S2|]. split; [lra|]. split; [exact S4|]. intros q FQ LQ. apply S6; [exact FQ|]. destruct (GAP q (first_in _ _ FQ)); lra.
      * split; [exact T2|]. split; [lra|]. split; [exact T4|]. intros q FQ LQ. apply T6; [exact FQ|]. destruct (GAP q (first_in _ _ FQ)); lra.
    + right. split; [|reflexivity]. right. intros r FR LR. apply T3; [exact FR|]. destruct (GAP r (first_in _ _ FR)); lra.
  - right. split; [left; intros r FR LR; apply S3; [exact FR|]; destruct (GAP r (first_in _ _ FR)); lra|]. destruct SH as [(m2 & r2 & v2 & T1 & T2 & T3 & T4 & T5 & T6)|(m2 & T1 & T2 & T3)]; rewrite T1; reflexivity.
Qed.
Print Assumptions C135_final.
Theorem C135_exact : forall grid key M r, first_of grid r -> (r_mass r == M)%Q -> get_final_values grid key M = Ok (r_final r key) /\ get_final_state grid key M = Ok (r_state r key).
Proof.
  intros grid key M r F E. assert (EX : exists q, In q grid /\ (r_mass q == M)%Q) by (exists r; split; [apply first_in, F|exact E]). destruct (filed_spec M grid EX) as (r' & F1 & F2 & F3). rewrite (first_unique grid r r' F F3) by (rewrite E, F2; reflexivity).
  apply in_grid_iff in EX. unfold get_final_values, get_final_state. rewrite EX, F1. split; reflexivity.
Qed.
Print Assumptions C135_exact.
Example C135_case : match get_final_values [star1; star2; star3] "co_core_mass" 2 with Ok (Some v) => Qred v | _ => 0%Q end = 3%Q /\ get_final_values [star2; star3] "co_core_mass" 4 = Ok None.
Proof. vm_compute. split; reflexivity. Qed.
(** At a mass of the grid whose value is missing the value is missing, though there is one arbitrarily close by. *)
Theorem C135_hole_refuted : get_final_values [star1; star2; star3] "co_core_mass" 3 = Ok None /\ (forall M, (1 < M < 5)%Q -> ~ (M == 3)%Q -> exists v, get_final_values [star1; star2; star3] "co_core_mass" M = Ok (Some v)) /\
  ~ (forall grid key M, between grid M \/ (exists r, In r grid /\ (r_mass r == M)%Q) -> (exists r v, nearest_low grid key M r v) -> (exists r v, nearest_high grid key M r v) -> exists v, get_final_values grid key M = Ok (Some v)).
Proof.
  assert (m1 : r_mass star1 = 1%Q) by reflexivity. assert (m2 : r_mass star2 = 3%Q) by reflexivity. assert (m3 : r_mass star3 = 5%Q) by reflexivity.
  assert (F1 : first_of [star1; star2; star3] star1) by (exists [], [star2; star3]; split; [reflexivity|intros b []]).
  assert (F3 : first_of [star1; star2; star3] star3). { exists [star1; star2], []. split; [reflexivity|]. intros b [<-|[<-|[]]] E; [rewrite m1, m3 in E|rewrite m2, m3 in E]; lra. }
  split; [vm_compute; reflexivity|]. split.
  - intros M [L U] N. assert (B : between [star1; star2; star3] M). { split; [intros r [<-|[<-|[<-|[]]]] E; [rewrite m1 in E|rewrite m2 in E|rewrite m3 in E]; lra|]. split; [exists star1; split; [cbn; auto|rewrite m1; lra]|exists star3; split; [cbn; auto|rewrite m3; lra]]. }
    destruct (C135_final _ "co_core_mass" M B) as [(lo & hi & a & b & v & _ & _ & E & _)|[[H|H] _]]; [exists v; exact E| |].
    + exfalso. specialize (H star1 F1). rewrite m1 in H. specialize (H L). discriminate H.
    + exfalso. specialize (H star3 F3). rewrite m3 in H. specialize (H U). discriminate H.
  - intro H. destruct (H [star1; star2; star3] "co_core_mass" 3%Q) as (v & E).
    + right. exists star2. split; [cbn; auto|rewrite m2; reflexivity].
    + exists star1, 1%Q. split; [exact F1|]. split; [rewrite m1; lra|]. split; [reflexivity|]. intros q FQ [LQ UQ]. apply first_in in FQ. destruct FQ as [<-|[<-|[<-|[]]]]; [rewrite m1 in LQ|rewrite m2 in UQ|rewrite m3 in UQ]; exfalso; lra.
    + exists star3, 9%Q. split; [exact F3|]. split; [rewrite m3; lra|]. split; [reflexivity|]. intros q FQ [LQ UQ]. apply first_in in FQ. destruct FQ as [<-|[<-|[<-|[]]]]; [rewrite m1 in LQ|rewrite m2 in LQ|rewrite m3 in UQ]; exfalso; lra.
    + vm_compute in E. discriminate E.
Qed.
Print Assumptions C135_hole_refuted.

(** ** C136: final states *)
(** The state is that of a run with the nearest mass, the heavier one if two are equally near. *)
Theorem C136_nearest : forall grid key M, between grid M -> exists r, first_of grid r /\ get_final_state grid key M = Ok (r_state r key) /\
  forall q, In q grid -> (Qabs (M - r_mass r) <= Qabs (M - r_mass q))%Q /\ ((Qabs (M - r_mass q) == Qabs (M - r_mass r))%Q -> (r_mass q <= r_mass r)%Q).
Proof.
  intros grid key M B. pose proof B as (NI & _). destruct (neighbours_found grid M B) as (low & high & lo & hi & E1 & E2 & E3 & E4 & E5 & E6 & (FL & FH & LL & LH & GAP)). unfold get_final_state. apply in_grid_no in NI as NI2. rewrite NI2, E1. cbn [rbind]. rewrite E2. cbn [rbind]. rewrite E3. cbn [rbind]. rewrite E4. cbn [rbind].
  assert (HALF : ((high - low) / 2 == (high - low) * (1 # 2))%Q) by field. assert (AL : (Qabs (M - r_mass lo) == M - r_mass lo)%Q) by (apply Qabs_pos; lra). assert (AH : (Qabs (M - r_mass hi) == r_mass hi - M)%Q) by (rewrite Qabs_neg by lra; ring).
  assert (AQ : forall q, In q grid -> (r_mass q <= r_mass lo /\ Qabs (M - r_mass q) == M - r_mass q)%Q \/ (r_mass hi <= r_mass q /\ Qabs (M - r_mass q) == r_mass q - M)%Q). { intros q IQ. destruct (GAP q IQ) as [G|G]; [left; split; [exact G|apply Qabs_pos; lra]|right; split; [exact G|rewrite Qabs_neg by lra; ring]]. }
  destruct (qlt M (low + (high - low) / 2)) eqn:C; [apply qlt_true in C; exists lo|apply qlt_false in C; exists hi]; rewrite HALF in C; (split; [assumption|]); (split; [reflexivity|]); intros q IQ; destruct (AQ q IQ) as [[G1 G2]|[G1 G2]]; rewrite G2, ?AL, ?AH; split; intros; lra.
Qed.
Print Assumptions C136_nearest.
Example C136_case : get_final_state [star1; star2; star3] "state" 2 = Ok "NS" /\ get_final_state [star1; star2; star3] "state" (19 # 10) = Ok "WD" /\ get_final_state [star1; star2] "state" 4 = Raise ValueError.
Proof. vm_compute. repeat split; reflexivity. Qed.

(** ** C137: final profiles *)
(** Masses decrease strictly inwards and are positive; the column has as many cells, at least two. *)
Definition graded (key : string) (r : run) : Prop :=
  2 <= length (r_profile r "mass") /\ length (r_profile r key) = length (r_profile r "mass") /\ ForallOrdPairs (fun a b => (b < a)%Q) (r_profile r "mass") /\ Forall (fun m => (0 < m)%Q) (r_profile r "mass").
(** The fraction of the star's mass inside the outer edge of cell [i], and the innermost one *)
Definition fraction (r : run) (i : nat) : Q := (nth i (r_profile r "mass") 0 / nth 0 (r_profile r "mass") 0)%Q.
Definition innermost (r : run) : Q := fraction r (length (r_profile r "mass") - 1).
(** [v] is on the straight line between two successive cells of the profile, at the fraction [q]. *)
Definition on_profile (r : run) (key : string) (q v : Q) : Prop :=
  exists i, S i < length (r_profile r "mass") /\ (fraction r (S i) <= q <= fraction r i)%Q /\
    (v == line (fraction r (S i), nth (S i) (r_profile r key) 0) (fraction r i, nth i (r_profile r key) 0) q)%Q.

Lemma relative_nth r i : i < length (r_profile r "mass") -> nth i (relative r) 0%Q = fraction r i.
Proof.
  intro L. unfold relative, fraction. replace (hd 0%Q (r_profile r "mass")) with (nth 0 (r_profile r "mass") 0%Q) by (destruct (r_profile r "mass"); reflexivity). set (h := nth 0 (r_profile r "mass") 0%Q). rewrite (nth_indep _ 0%Q (0 / h)%Q) by (rewrite map_length; exact L). rewrite (map_nth (fun m => (m / h)%Q)). reflexivity.
Qed.
Lemma fop_nth l : ForallOrdPairs (fun a b => (b < a)%Q) l -> forall i j, i < j -> j < length l -> (nth j l 0 < nth i l 0)%Q.
Proof.
  induction 1 as [|a l F _ IH]; intros i j IJ J; cbn in J; [lia|]. destruct j as [|j]; [lia|]. destruct i as [|i]; cbn.
  - rewrite Forall_forall in F. apply F. apply nth_In. lia.
  - apply IH; lia.
Qed.
Lemma fraction_less key r i j : graded key r -> i < j -> j < length (r_profile r "mass") -> (fraction r j < fraction r i)%Q.
Proof.
  intros (L & _ & F & P) IJ J. unfold fraction. assert (H : (0 < nth 0 (r_profile r "mass") 0)%Q) by (rewrite Forall_forall in P; apply P, nth_In; lia). apply Qlt_shift_div_r; [exact H|]. assert (E : (nth i (r_profile r "mass") 0 / nth 0 (r_profile r "mass") 0 * nth 0 (r_profile r "mass") 0 == nth i (r_profile r "mass") 0)%Q) by (field; lra). rewrite E. apply fop_nth; assumption.
Qed.
Lemma fraction_le key r i j : graded key r -> i <= j -> j < length (r_profile r "mass") -> (fraction r j <= fraction r i)%Q.
Proof. intros G IJ J. destruct (Nat.eq_dec i j) as [->|N]; [lra|]. apply Qlt_le_weak. apply (fraction_less key); [exact G|lia|exact J]. Qed.
Lemma fraction_surface key r : graded key r -> (fraction r 0 == 1)%Q.
Proof. intros (L & _ & F & P). unfold fraction. assert (H : (0 < nth 0 (r_profile r "mass") 0)%Q) by (rewrite Forall_forall in P; apply P, nth_In; lia). field. lra. Qed.
Lemma nodes_in r key p : graded key r -> In p (combine (relative r) (r_profile r key)) <-> exists i, i < length (r_profile r "mass") /\ p = (fraction r i, nth i (r_profile r key) 0%Q).
Proof.
  intros (L & E & _). assert (LR : length (relative r) = length (r_profile r "mass")) by (unfold relative; apply map_length). split.
  - intro I. destruct (In_nth _ _ (0%Q, 0%Q) I) as (i & Li & Ei). rewrite combine_length in Li. exists i. split; [lia|]. rewrite combine_nth in Ei by lia. rewrite relative_nth in Ei by lia. congruence.
  - intros (i & Li & ->). rewrite <- relative_nth by exact Li. rewrite <- combine_nth by lia. apply nth_In. rewrite combine_length. lia.
Qed.
Lemma fop_of_nth {A} (R : A -> A -> Prop) d l : (forall i j, i < j -> j < length l -> R (nth i l d) (nth j l d)) -> ForallOrdPairs R l.
Proof.
  induction l as [|a l IH]; intro H; constructor.
  - apply Forall_forall. intros x I. destruct (In_nth _ _ d I) as (j & J & <-). apply (H 0 (S j)); cbn; lia.
  - apply IH. intros i j IJ J. apply (H (S i) (S j)); cbn; lia.
Qed.
Lemma nodes_distinct r key : graded key r -> distinct_x (combine (relative r) (r_profile r key)).
Proof.
  intros G. pose proof G as (L & E & _). assert (LR : length (relative r) = length (r_profile r "mass")) by (unfold relative; apply map_length). apply (fop_of_nth _ (0%Q, 0%Q)). intros i j IJ J. rewrite combine_length in J. rewrite !combine_nth by lia. cbn [fst]. rewrite !relative_nth by lia. pose proof (fraction_less key r i j G IJ ltac:(lia)). lra.
Qed.
Lemma profile_interp r key : graded key r -> exists f, construct "linear" (relative r) (r_profile r key) NoFill None None = Ok f /\ forall q, (innermost r <= q <= 1)%Q -> exists v, call f q = Ok v /\ on_profile r key q v.
Proof.
  intros G. pose proof G as (L & E & _). assert (LR : length (relative r) = length (r_profile r "mass")) by (unfold relative; apply map_length).
  destruct (interp_exact (relative r) (r_profile r key) NoFill None None) as (f & F1 & F2); [lia|intro C; rewrite C in LR; cbn in LR; lia|apply nodes_distinct; exact G|discriminate|]. exists f. split; [exact F1|]. intros q [Q1 Q2]. destruct (F2 q) as (v & V1 & _ & V2 & _). exists v. split; [exact V1|].
  set (N := length (r_profile r "mass")) in *. assert (LO : lowest (combine (relative r) (r_profile r key)) (fraction r (N - 1), nth (N - 1) (r_profile r key) 0%Q)). { split; [apply nodes_in; [exact G|exists (N - 1); split; [unfold N; lia|reflexivity]]|]. intros k K. apply nodes_in in K as (i & Li & ->); [|exact G]. cbn [fst]. apply (fraction_le key); [exact G|unfold N; lia|unfold N; lia]. }
  assert (HI : highest (combine (relative r) (r_profile r key)) (fraction r 0, nth 0 (r_profile r key) 0%Q)). { split; [apply nodes_in; [exact G|exists 0; split; [fold N; lia|reflexivity]]|]. intros k K. apply nodes_in in K as (i & Li & ->); [|exact G]. cbn [fst]. apply (fraction_le key); [exact G|lia|exact Li]. }
  pose proof (fraction_surface key r G) as SF. destruct (V2 _ _ LO HI ltac:(lia)) as (m & n & (I1 & I2 & I3 & I4) & H2 & H3); [cbn [fst]; unfold innermost in Q1; fold N in Q1; lra|].
  apply nodes_in in I1 as (j & Lj & ->); [|exact G]. apply nodes_in in I2 as (i & Li & ->); [|exact G]. cbn [fst] in *.
  assert (IJ : i < j). { destruct (Nat.lt_ge_cases i j) as [H|H]; [exact H|]. pose proof (fraction_le key r j i G H Li). exfalso. lra. }
  assert (j = S i). { destruct (Nat.eq_dec j (S i)) as [H|H]; [exact H|]. exfalso. destruct (I4 (fraction r (S i), nth (S i) (r_profile r key) 0%Q)) as [C|C]; [apply nodes_in; [exact G|exists (S i); split; [lia|reflexivity]]| |]; cbn [fst] in C.
    - pose proof (fraction_less key r (S i) j G ltac:(lia) Lj). lra.
    - pose proof (fraction_less key r i (S i) G ltac:(lia) ltac:(lia)). lra. }
  subst j. exists i. split; [exact Lj|]. split; [exact H2|exact H3].
Qed.
Lemma call_all_ok f l : (forall q, In q l -> exists v, call f q = Ok v) -> exists vs, call_all f l = Ok vs /\ length vs = length l /\ forall i, i < length l -> call f (nth i l 0%Q) = Ok (nth i vs 0%Q).
Proof.
  induction l as [|x l IH]; intro H; [exists []; split; [reflexivity|split; [reflexivity|intros i I; cbn in I; lia]]|]. destruct (H x (or_introl eq_refl)) as (v & V). destruct IH as (vs & A & B & C); [intros q I; apply H; right; exact I|]. exists (v :: vs). cbn [call_all]. rewrite V. cbn [rbind]. rewrite A. split; [reflexivity|]. split; [cbn; lia|]. intros [|i] I; cbn; [exact V|]. apply C. cbn in I. lia.
Qed.
Lemma rev_last (l : list Q) : l <> [] -> exists t, rev l = nth (length l - 1) l 0%Q :: t.
Proof. intro N. destruct (rev l) as [|x t] eqn:E; [exfalso; apply N; rewrite <- (rev_involutive l), E; reflexivity|]. exists t. f_equal. assert (length l = S (length t)) by (rewrite <- rev_length, E; reflexivity). replace x with (nth 0 (rev l) 0%Q) by (rewrite E; reflexivity). rewrite rev_nth by lia. f_equal. Qed.

(** The profile is given at the cells of one of the two runs, the one not reaching as far in; at each cell it is the mean, with weights by mass, of this run's value
    and the other's on the line between the cells enclosing the same fraction of the mass. *)
Theorem C137_profile : forall grid key M, (forall r, In r grid -> graded key r) -> between grid M ->
  exists lo hi l r other wr, enclose grid M lo hi /\ get_profile grid key M = Ok (l, r) /\
    ((r = hi /\ other = lo /\ (wr == (M - r_mass lo) / (r_mass hi - r_mass lo))%Q /\ (innermost lo < innermost hi)%Q) \/ (r = lo /\ other = hi /\ (wr == (r_mass hi - M) / (r_mass hi - r_mass lo))%Q /\ (innermost hi <= innermost lo)%Q)) /\
    length l = length (r_profile r "mass") /\
    forall i, i < length l -> exists v, on_profile other key (fraction r i) v /\ (nth i l 0 == wr * nth i (r_profile r key) 0 + (1 - wr) * v)%Q.
Proof.
  intros grid key M RG B. pose proof B as (NI & _). destruct (neighbours_found grid M B) as (low & high & lo & hi & E1 & E2 & E3 & E4 & E5 & E6 & EN). pose proof EN as (FL & FH & LL & LH & _). assert (Gl : graded key lo) by (apply RG, first_in, FL). assert (Gh : graded key hi) by (apply RG, first_in, FH).
  assert (LRl : length (relative lo) = length (r_profile lo "mass")) by (unfold relative; apply map_length). assert (LRh : length (relative hi) = length (r_profile hi "mass")) by (unfold relative; apply map_length). pose proof Gl as (Ll & Lkl & _). pose proof Gh as (Lh & Lkh & _).
  unfold get_profile. apply in_grid_no in NI. rewrite NI, E1. cbn [rbind]. rewrite E2. cbn [rbind]. rewrite E3. cbn [rbind]. rewrite E4. cbn [rbind]. cbv zeta.
  destruct (rev_last (relative lo)) as (tl & ->); [intro C; rewrite C in LRl; cbn in LRl; lia|]. destruct (rev_last (relative hi)) as (th & ->); [intro C; rewrite C in LRh; cbn in LRh; lia|]. rewrite !relative_nth by lia. rewrite LRl, LRh. fold (innermost lo). fold (innermost hi).
  assert (RIN : forall r q, graded key r -> In q (relative r) -> (innermost r <= q <= 1)%Q). { intros r q G I. assert (LR : length (relative r) = length (r_profile r "mass")) by (unfold relative; apply map_length). destruct (In_nth _ _ 0%Q I) as (i & Li & <-). rewrite LR in Li. rewrite relative_nth by exact Li. rewrite <- (fraction_surface key r G). split; apply (fraction_le key); try exact G; try lia. }
  destruct (qlt (innermost lo) (innermost hi)) eqn:C.
  - apply qlt_true in C. destruct (profile_interp lo key Gl) as (f & F1 & F2). rewrite F1. cbn [rbind]. destruct (call_all_ok f (relative hi)) as (vs & V1 & V2 & V3); [intros q I; destruct (F2 q) as (v & V & _); [specialize (RIN hi q Gh I); lra|exists v; exact V]|]. rewrite V1. cbn [rbind].
    exists lo, hi. eexists. exists hi, lo, ((M - r_mass lo) / (r_mass hi - r_mass lo))%Q. split; [exact EN|]. split; [reflexivity|]. split; [left; split; [reflexivity|]; split; [reflexivity|]; split; [reflexivity|exact C]|]. split; [rewrite mix_length; lia|]. intros i I. rewrite mix_length in I. specialize (V3 i ltac:(lia)). rewrite relative_nth in V3 by lia.
    destruct (F2 (fraction hi i)) as (v & W1 & W2); [assert (H : (innermost hi <= fraction hi i <= 1)%Q) by (apply (RIN hi); [exact Gh|rewrite <- relative_nth by lia; apply nth_In; lia]); lra|]. exists v. split; [exact W2|]. rewrite mix_nth by lia. assert (v = nth i vs 0%Q) by congruence. subst v. rewrite E5, E6. ring.
  - apply qlt_false in C. destruct (profile_interp hi key Gh) as (f & F1 & F2). rewrite F1. cbn [rbind]. destruct (call_all_ok f (relative lo)) as (vs & V1 & V2 & V3); [intros q I; destruct (F2 q) as (v & V & _); [specialize (RIN lo q Gl I); lra|exists v; exact V]|]. rewrite V1. cbn [rbind].
    exists lo, hi. eexists. exists lo, hi, ((r_mass hi - M) / (r_mass hi - r_mass lo))%Q. split; [exact EN|]. split; [reflexivity|]. split; [right; split; [reflexivity|]; split; [reflexivity|]; split; [reflexivity|exact C]|]. split; [rewrite mix_length; lia|]. intros i I. rewrite mix_length in I. specialize (V3 i ltac:(lia)). rewrite relative_nth in V3 by lia.
    destruct (F2 (fraction lo i)) as (v & W1 & W2); [assert (H : (innermost lo <= fraction lo i <= 1)%Q) by (apply (RIN lo); [exact Gl|rewrite <- relative_nth by lia; apply nth_In; lia]); lra|]. exists v. split; [exact W2|]. rewrite mix_nth by lia. assert (v = nth i vs 0%Q) by congruence. subst v. rewrite <- E5, <- E6. field. lra.
Qed.
Print Assumptions C137_profile.
Example C137_case : (forall r, In r [star1; star2; star3] -> graded "logRho" r) /\ match get_profile [star1; star2; star3] "logRho" 2 with Ok (l, r) => (map Qred l, r_state r "") | _ => ([], "") end = ([3 # 2; 35 # 8]%Q, "NS") /\
  match get_profile [star1; star2; star3] "logRho" 4 with Ok (l, r) => (map Qred l, r_state r "") | _ => ([], "") end = ([5 # 2; 113 # 18]%Q, "NS").
Proof.
  split; [|vm_compute; split; reflexivity]. intros r [<-|[<-|[<-|[]]]]; (split; [cbn; lia|]); (split; [reflexivity|]); (split; [repeat (constructor; [repeat constructor|]); constructor|repeat constructor]).
Qed.
