(** C61: histories cut to start at Roche-lobe overflow.  C62: histories cut at central helium and carbon depletion. *)
From Coq Require Import String List Bool ZArith QArith Qabs Lia Arith Lqa.
From Verif Require Import PyBase PyList MaskList ScrubModel ScrubProofs.
Import ListNotations.
Open Scope string_scope.
Open Scope nat_scope.
Open Scope list_scope.

(** ** Specification *)
Definition at_least (x : num) (v : Q) : Prop := exists q, x = Some q /\ (v <= q)%Q.
Definition has_column (t : table) (c : string) : Prop := In c (names t).
(** The donor overflows, or mass is transferred at 1e-10 solar masses per year or more. *)
Definition transferring (b : table) (r : record) : Prop :=
  (has_column b "rl_relative_overflow_1" /\ at_least (r "rl_relative_overflow_1") 0) \/
  (has_column b "rl_relative_overflow_2" /\ at_least (r "rl_relative_overflow_2") 0) \/
  at_least (r "lg_mtransfer_rate") (-10).
Definition needed_columns (b : table) : Prop :=
  has_column b "lg_mtransfer_rate" /\ (has_column b "rl_relative_overflow_1" \/ has_column b "rl_relative_overflow_2").
(** Row [n] is the first one with mass transfer. *)
Definition begins (b : table) (n : nat) : Prop :=
  (exists r, nth_error (rows b) n = Some r /\ transferring b r) /\
  forall i r, i < n -> nth_error (rows b) i = Some r -> ~ transferring b r.
(** [t'] is [t] without its first [n] rows and with [a] subtracted from the column [c], if there is one. *)
Definition started (c : string) (a : Q) (n : nat) (t t' : table) : Prop :=
  names t' = names t /\ length (rows t') = length (rows t) - n /\
  forall i r, nth_error (rows t) (n + i) = Some r ->
    exists r', nth_error (rows t') i = Some r' /\ (forall c', c' <> c -> r' c' = r c') /\
      (has_column t c -> forall q, r c = Some q -> exists q', r' c = Some q' /\ (q' == q - a)%Q) /\
      (~ has_column t c -> r' c = r c).
Definition started_opt (c : string) (a : Q) (n : nat) (t t' : option table) : Prop :=
  match t, t' with None, None => True | Some t, Some t' => started c a n t t' | _, _ => False end.

(** ** Lemmas *)
Lemma has_in t c : has t c = true <-> has_column t c.
Proof.
  unfold has, has_column. rewrite existsb_exists. split.
  - intros (x & I & E). apply String.eqb_eq in E. congruence.
  - intros I. exists c. split; [exact I|apply String.eqb_refl].
Qed.
Lemma nge_at_least x v : nge x v = true <-> at_least x v.
Proof.
  unfold nge, at_least. destruct x as [q|]; [|split; [discriminate|intros (q & E & _); discriminate]].
  rewrite Qle_bool_iff. split; [eauto|]. intros (q' & E & L). injection E as <-. exact L.
Qed.
Lemma first_go : forall l i, match (fix go (i : nat) (l : list bool) := match l with [] => None | b :: r => if b then Some i else go (S i) r end) i l with
  | Some n => i <= n /\ nth_error l (n - i) = Some true /\ forall j, j < n - i -> nth_error l j = Some false
  | None => forall b, In b l -> b = false end.
Proof.
  induction l as [|b l IH]; intros i; [easy|]. destruct b.
  - rewrite Nat.sub_diag. split; [lia|]. split; [reflexivity|]. lia.
  - specialize (IH (S i)). destruct (_ (S i) l) as [n|].
    + destruct IH as (A & B & C). split; [lia|]. replace (n - i) with (S (n - S i)) by lia. split; [exact B|].
      intros [|j] J; [reflexivity|]. apply C. lia.
    + intros b [<-|I]; auto.
Qed.
Lemma first_true_some l n : first_true l = Some n -> nth_error l n = Some true /\ forall j, j < n -> nth_error l j = Some false.
Proof. unfold first_true. intros E. pose proof (first_go l 0) as H. rewrite E, Nat.sub_0_r in H. tauto. Qed.
Lemma first_true_none l : first_true l = None -> forall b, In b l -> b = false.
Proof. unfold first_true. intros E. pose proof (first_go l 0) as H. rewrite E in H. exact H. Qed.
Lemma first_true_is l n : nth_error l n = Some true -> (forall j, j < n -> nth_error l j = Some false) -> first_true l = Some n.
Proof.
  intros A B. destruct (first_true l) as [m|] eqn:E.
  - apply first_true_some in E as [C D]. f_equal. destruct (lt_eq_lt_dec m n) as [[L|L]|L]; [|exact L|].
    + rewrite B in C by exact L. discriminate.
    + rewrite D in A by exact L. discriminate.
  - apply nth_error_In in A. apply (first_true_none _ E) in A. discriminate.
Qed.

Definition cond_row (b : table) (r : record) : bool :=
  (has b "rl_relative_overflow_1" && nge (r "rl_relative_overflow_1") RL_RELATIVE_OVERFLOW_THRESHOLD
   || has b "rl_relative_overflow_2" && nge (r "rl_relative_overflow_2") RL_RELATIVE_OVERFLOW_THRESHOLD)
  || nge (r "lg_mtransfer_rate") LG_MTRANSFER_RATE_THRESHOLD.
Lemma cond_row_spec b r : cond_row b r = true <-> transferring b r.
Proof.
  unfold cond_row, transferring. rewrite !orb_true_iff, !andb_true_iff, !has_in, !nge_at_least. tauto.
Qed.
Lemma conditions_ok b : needed_columns b -> conditions_met b = Ok (map (cond_row b) (rows b)).
Proof.
  intros [A B]. unfold conditions_met. rewrite (proj2 (has_in _ _) A). cbn [negb].
  assert (E : has b "rl_relative_overflow_1" || has b "rl_relative_overflow_2" = true).
  { apply orb_true_iff. rewrite !has_in. exact B. }
  rewrite E. reflexivity.
Qed.
Lemma begins_first b n : begins b n <-> first_true (map (cond_row b) (rows b)) = Some n.
Proof.
  split.
  - intros [(r & R1 & R2) H]. apply first_true_is.
    + rewrite nth_map_error, R1. cbn. f_equal. apply cond_row_spec. exact R2.
    + intros j J. rewrite nth_map_error. destruct (nth_error (rows b) j) as [r'|] eqn:E.
      * cbn. f_equal. destruct (cond_row b r') eqn:C; [|reflexivity]. exfalso. apply (H j r' J E). apply cond_row_spec. exact C.
      * exfalso. apply nth_error_None in E. assert (n < length (rows b)) by (apply nth_error_Some; congruence). lia.
  - intros E. apply first_true_some in E as [A B]. rewrite nth_map_error in A. split.
    + destruct (nth_error (rows b) n) as [r|]; [|discriminate]. exists r. split; [reflexivity|]. apply cond_row_spec. cbn in A. congruence.
    + intros i r I R T. specialize (B i I). rewrite nth_map_error, R in B. cbn in B. apply cond_row_spec in T. congruence.
Qed.

(** Differences and their minimum *)
Lemma nth_diff l i : nth_error (np_diff l) i =
  match nth_error l i, nth_error l (S i) with Some x, Some y => Some (nsub y x) | _, _ => None end.
Proof.
  unfold np_diff. destruct l as [|a r]; [destruct i; reflexivity|]. revert a i. induction r as [|b r IH]; intros a i.
  - destruct i; cbn; [reflexivity|]. destruct i; reflexivity.
  - destruct i as [|i]; [reflexivity|]. change (nth_error (a :: b :: r) (S i)) with (nth_error (b :: r) i).
    change (nth_error (a :: b :: r) (S (S i))) with (nth_error (b :: r) (S i)). rewrite <- IH. reflexivity.
Qed.
Lemma py_min_go : forall l m, exists m', fold_left (fun m y => if nlt y m then y else m) (map (@Some Q) l) (Some m) = Some m' /\
  (m' = m \/ In m' l) /\ (m' <= m)%Q /\ forall q, In q l -> (m' <= q)%Q.
Proof.
  induction l as [|x l IH]; intros m; cbn [map fold_left].
  - exists m. repeat split; [auto|lra|easy].
  - destruct (nlt (Some x) (Some m)) eqn:C.
    + apply nlt_before in C as (x' & m' & E1 & E2 & L). injection E1 as <-. injection E2 as <-.
      destruct (IH x) as (m'' & E & I & A & B). exists m''. split; [exact E|]. split; [destruct I; [subst; cbn; auto|cbn; auto]|].
      split; [lra|]. intros q [<-|Q]; [exact A|auto].
    + assert (L : (m <= x)%Q). { destruct (Qlt_le_dec x m) as [L|L]; [|exact L]. assert (nlt (Some x) (Some m) = true) by (apply nlt_before; exists x, m; auto). congruence. }
      destruct (IH m) as (m'' & E & I & A & B). exists m''. split; [exact E|]. split; [destruct I; cbn; auto|].
      split; [exact A|]. intros q [<-|Q]; [lra|auto].
Qed.
Lemma py_min_spec (l : list Q) : l <> [] -> exists m, py_min (map (@Some Q) l) = Some m /\ In m l /\ forall q, In q l -> (m <= q)%Q.
Proof.
  destruct l as [|x l]; [easy|]. intros _. destruct (py_min_go l x) as (m & E & I & A & B). exists m. split; [exact E|].
  split; [destruct I; cbn; auto|]. intros q [<-|Q]; auto.
Qed.
Lemma np_diff_some (l : list Q) : np_diff (map (@Some Q) l) = map (@Some Q) (map (fun p => fst p - snd p)%Q (combine (tl l) l)).
Proof.
  unfold np_diff. destruct l as [|a r]; [reflexivity|]. cbn [map tl]. rewrite map_map.
  change (Some a :: map Some r) with (map (@Some Q) (a :: r)). generalize (a :: r) as s. clear a.
  induction r as [|x r IH]; intros [|y s]; cbn; try reflexivity. f_equal. apply IH.
Qed.

(** The age that is removed, for ages that are numbers *)
Definition increments (l : list Q) : list Q := map (fun p => fst p - snd p)%Q (combine (tl l) l).
Lemma increments_in l d : In d (increments l) <-> exists i x y, nth_error l i = Some x /\ nth_error l (S i) = Some y /\ d = (y - x)%Q.
Proof.
  unfold increments. destruct l as [|a r]; [split; [easy|intros ([|i] & x & y & E & _); discriminate]|]. cbn [tl].
  revert a. induction r as [|b r IH]; intros a.
  - split; [easy|]. intros (i & x & y & _ & E & _). destruct i; discriminate.
  - cbn [combine map In fst snd]. rewrite IH. split.
    + intros [<-|(i & x & y & X & Y & ->)]; [exists 0, a, b; repeat split|exists (S i), x, y; repeat split; assumption].
    + intros ([|i] & x & y & X & Y & ->); [left; cbn in *; congruence|right; exists i, x, y; repeat split; assumption].
Qed.
Lemma increments_shift (a : Q) : forall l, increments (map (fun x => x - a)%Q l) = map (fun p => (fst p - a) - (snd p - a))%Q (combine (tl l) l).
Proof.
  intros l. unfold increments. destruct l as [|x r]; [reflexivity|]. cbn [map tl]. 
  change ((x - a)%Q :: map (fun x => (x - a)%Q) r) with (map (fun x => (x - a)%Q) (x :: r)). generalize (x :: r) as s.
  clear x. induction r as [|y r IH]; intros [|z s]; cbn; try reflexivity. f_equal. apply IH.
Qed.
Lemma increments_shift_in a l d : In d (increments (map (fun x => x - a)%Q l)) -> exists d', In d' (increments l) /\ (d == d')%Q.
Proof.
  rewrite increments_shift. intros I. apply in_map_iff in I as (p & <- & I). exists (fst p - snd p)%Q. split; [|ring].
  unfold increments. apply (in_map (fun p => fst p - snd p)%Q). exact I.
Qed.
Lemma increments_shift_in' a l d : In d (increments l) -> exists d', In d' (increments (map (fun x => x - a)%Q l)) /\ (d == d')%Q.
Proof.
  rewrite increments_shift. intros I. apply in_map_iff in I as (p & <- & I). exists ((fst p - a) - (snd p - a))%Q. split; [|ring].
  apply (in_map (fun p => (fst p - a) - (snd p - a))%Q). exact I.
Qed.

(** Never decreasing, with two equal neighbours. *)
Definition stalls (l : list Q) : Prop := (forall d, In d (increments l) -> (0 <= d)%Q) /\ exists d, In d (increments l) /\ (d == 0)%Q.

Lemma map_sub a l : map (fun x => nsub x (Some a)) (map (@Some Q) l) = map (@Some Q) (map (fun x => x - a)%Q l).
Proof. rewrite !map_map. reflexivity. Qed.

Lemma increments_ne (l : list Q) : 1 < length l -> increments l <> [].
Proof. destruct l as [|a [|b l]]; cbn; try lia. discriminate. Qed.

Lemma min_zero (l : list Q) : 1 < length l ->
  exists m, py_min (np_diff (map (@Some Q) l)) = Some m /\ ((m == 0)%Q <-> stalls l).
Proof.
  intros L. rewrite np_diff_some. fold (increments l). destruct (py_min_spec (increments l) (increments_ne l L)) as (m & E & I & A).
  exists m. split; [exact E|]. split.
  - intros Z. split; [intros d D; specialize (A d D); lra|]. exists m. auto.
  - intros (B & d & D1 & D2). specialize (A d D1). specialize (B m I). lra.
Qed.
Lemma stalls_shift a l : stalls (map (fun x => x - a)%Q l) <-> stalls l.
Proof.
  unfold stalls. split; intros [A (d & D1 & D2)]; split.
  - intros e E. destruct (increments_shift_in' a l e E) as (e' & E1 & E2). specialize (A e' E1). lra.
  - destruct (increments_shift_in a l d D1) as (d' & D3 & D4). exists d'. split; [exact D3|lra].
  - intros e E. destruct (increments_shift_in a l e E) as (e' & E1 & E2). specialize (A e' E1). lra.
  - destruct (increments_shift_in' a l d D1) as (d' & D3 & D4). exists d'. split; [exact D3|lra].
Qed.
Lemma Qeq_bool_dec d : (Qeq_bool d 0 = true /\ (d == 0)%Q) \/ (Qeq_bool d 0 = false /\ ~ (d == 0)%Q).
Proof.
  destruct (Qeq_bool d 0) eqn:E; [left|right]; (split; [reflexivity|]).
  - apply Qeq_bool_iff. exact E.
  - intros H. apply Qeq_bool_iff in H. congruence.
Qed.

Lemma age_ok a l : ~ stalls (a :: l) -> age_to_remove (map (@Some Q) (a :: l)) = Ok (Some a).
Proof.
  intros NS. unfold age_to_remove. cbn [map hd]. cbv zeta.
  change (nsub (Some a) (Some a) :: map (fun x => nsub x (Some a)) (map (@Some Q) l)) with (map (fun x => nsub x (Some a)) (map (@Some Q) (a :: l))).
  rewrite map_sub, map_length, map_length.
  destruct (Nat.ltb_spec 1 (length (a :: l))) as [L|L]; [|reflexivity]. cbn [andb].
  destruct (min_zero (map (fun x => (x - a)%Q) (a :: l))) as (m & E & Z); [rewrite map_length; exact L|].
  rewrite E. unfold nis0. rewrite stalls_shift in Z.
  destruct (Qeq_bool_dec m) as [[Q1 Q2]|[Q1 Q2]]; [exfalso; tauto|]. rewrite Q1. reflexivity.
Qed.

Lemma age_stalls a l : stalls (a :: l) -> age_to_remove (map (@Some Q) (a :: l)) = Raise (OtherError "Exception").
Proof.
  intros ST. unfold age_to_remove. cbv zeta. replace (hd None (map (@Some Q) (a :: l))) with (Some a) by reflexivity.
  rewrite map_sub, map_length, map_length.
  assert (L : 1 < length (a :: l)). { destruct l as [|b l]; [|cbn; lia]. destruct ST as [_ (d & D & _)]. easy. }
  rewrite (proj2 (Nat.ltb_lt _ _) L). cbn [andb].
  destruct (min_zero (map (fun x => (x - a)%Q) (a :: l))) as (m & E & Z); [rewrite map_length; exact L|].
  rewrite E. unfold nis0. rewrite stalls_shift in Z.
  destruct (Qeq_bool_dec m) as [[Q1 Q2]|[Q1 Q2]]; [|exfalso; tauto]. rewrite Q1. clear m E Z Q1 Q2.
  destruct (min_zero (a :: l) L) as (m & E & Z). rewrite E.
  destruct (Qeq_bool_dec m) as [[Q1 Q2]|[Q1 Q2]]; [|exfalso; tauto]. rewrite Q1. cbn [negb].
  assert (Qeq_bool a a = true) as -> by (apply Qeq_bool_iff; reflexivity). cbn [nsub].
  assert (TB : Qle_bool (Qabs (a - m - a) / a) (1 # 100) = true).
  { apply Qle_bool_iff. assert (ZZ : (a - m - a == 0)%Q) by lra. rewrite ZZ. change (Qabs 0) with 0%Q. unfold Qdiv. rewrite Qmult_0_l. lra. }
  rewrite TB. cbn [negb]. rewrite map_sub, np_diff_some. fold (increments (map (fun x => (x - (a - m))%Q) (a :: l))).
  match goal with |- (if existsb ?p ?q then _ else _) = _ => assert (EX : existsb p q = true); [|rewrite EX; reflexivity] end.
  destruct ST as [_ (d & D1 & D2)]. destruct (increments_shift_in' (a - m) (a :: l) d D1) as (d' & D3 & D4).
  apply existsb_exists. exists (Some d'). split; [apply in_map; exact D3|].
  rewrite andb_true_r. apply negb_true_iff. destruct (nlt (Some 0%Q) (Some d')) eqn:N; [|reflexivity].
  apply nlt_before in N as (x & y & X & Y & LT). injection X as <-. injection Y as <-. lra.
Qed.

(** Slices *)
Lemma shift_rows c a n t : started c a n t (shift_age c (Some a) (from n t)).
Proof.
  unfold started, shift_age, from. cbn [names rows]. split; [reflexivity|].
  assert (H : has {| names := names t; rows := skipn n (rows t) |} c = has t c) by reflexivity. rewrite H.
  split; [destruct (has t c); rewrite ?map_length, skipn_length; reflexivity|].
  intros i r R. rewrite <- nth_skipn in R. destruct (has t c) eqn:HC.
  - exists (setcol c (fun r => nsub (r c) (Some a)) r). split; [rewrite nth_map_error, R; reflexivity|]. unfold setcol. split; [|split].
    + intros c' N. apply String.eqb_neq in N. rewrite N. reflexivity.
    + intros _ q E. rewrite String.eqb_refl, E. cbn. exists (q - a)%Q. split; [reflexivity|lra].
    + intros N. exfalso. apply N. apply has_in. exact HC.
  - exists r. split; [exact R|]. split; [reflexivity|]. split; [|reflexivity].
    intros Y. apply has_in in Y. congruence.
Qed.
Lemma shift_opt c a n t : started_opt c a n t (option_map (fun h => shift_age c (Some a) (from n h)) t).
Proof. destruct t as [t|]; [|exact I]. apply shift_rows. Qed.

(** Ages of the rows from [n] on, as numbers. *)
Definition ages_from (b : table) (n : nat) (l : list Q) : Prop :=
  has_column b "age" /\ map (fun r => r "age") (skipn n (rows b)) = map (@Some Q) l.

(** ** C61 *)
(** The histories start at the first row with mass transfer, with age 0; the same rows are removed from all three
    and the same age is subtracted; nothing else changes. *)
Theorem C61_starts : forall b h1 h2 n a l, needed_columns b -> begins b n -> ages_from b n (a :: l) -> ~ stalls (a :: l) ->
  exists k b' h1' h2', keep_after_RLO (Some b) h1 h2 = Ok k /\ returned k = Some (Some b', h1', h2') /\
    started "age" a n b b' /\ started_opt "star_age" a n h1 h1' /\ started_opt "star_age" a n h2 h2' /\
    (exists r, nth_error (rows b') 0 = Some r /\ exists z, r "age" = Some z /\ (z == 0)%Q).
Proof.
  intros b h1 h2 n a l NC BE [HA AG] NS. unfold keep_after_RLO. rewrite (conditions_ok b NC). cbn [rbind].
  pose proof BE as BE'. apply begins_first in BE. rewrite BE. rewrite (proj2 (has_in _ _) HA). cbn [negb].
  unfold col, from. cbn [rows]. rewrite AG, (age_ok a l NS). cbn [rbind].
  do 4 eexists. split; [reflexivity|]. split; [reflexivity|]. split; [apply shift_rows|]. split; [apply shift_opt|]. split; [apply shift_opt|].
  destruct (shift_rows "age" a n b) as (_ & _ & SR). destruct BE' as [(r & R1 & _) _].
  rewrite <- (Nat.add_0_r n) in R1. destruct (SR 0 r R1) as (r' & R2 & _ & R3 & _). exists r'. split; [exact R2|].
  destruct (R3 HA a) as (q' & Q1 & Q2).
  - rewrite <- nth_skipn in R1. destruct (skipn n (rows b)) as [|r0 rs]; [discriminate|]. cbn in R1, AG. congruence.
  - exists q'. split; [exact Q1|]. lra.
Qed.
Print Assumptions C61_starts.

(** Without mass transfer None is returned; without a binary history everything is returned unchanged. *)
Theorem C61_no_transfer : forall b h1 h2, needed_columns b -> (forall r, In r (rows b) -> ~ transferring b r) ->
  keep_after_RLO (Some b) h1 h2 = Ok {| returned := None; after := (Some b, h1, h2) |}.
Proof.
  intros b h1 h2 NC H. unfold keep_after_RLO. rewrite (conditions_ok b NC). cbn [rbind].
  destruct (first_true (map (cond_row b) (rows b))) as [n|] eqn:E; [|reflexivity].
  apply begins_first in E as [(r & R1 & R2) _]. exfalso. apply (H r); [eapply nth_error_In; eauto|exact R2].
Qed.
Print Assumptions C61_no_transfer.
Theorem C61_no_binary : forall h1 h2, keep_after_RLO None h1 h2 = Ok {| returned := Some (None, h1, h2); after := (None, h1, h2) |}.
Proof. reflexivity. Qed.

(** It fails if a column is missing, or if the ages stall after the onset. *)
Theorem C61_fails : forall b h1 h2,
  (~ needed_columns b -> keep_after_RLO (Some b) h1 h2 = Raise ValueError) /\
  (needed_columns b -> ~ has_column b "age" -> (exists n, begins b n) -> keep_after_RLO (Some b) h1 h2 = Raise ValueError) /\
  (forall n l, needed_columns b -> begins b n -> ages_from b n l -> stalls l ->
     keep_after_RLO (Some b) h1 h2 = Raise (OtherError "Exception")).
Proof.
  intros b h1 h2. split; [|split].
  - intros N. unfold keep_after_RLO, conditions_met. destruct (has b "lg_mtransfer_rate") eqn:E1; [|reflexivity]. cbn [negb].
    destruct (has b "rl_relative_overflow_1" || has b "rl_relative_overflow_2") eqn:E2; [|reflexivity].
    exfalso. apply N. apply orb_true_iff in E2. rewrite !has_in in *. split; assumption.
  - intros NC NA (n & B). unfold keep_after_RLO. rewrite (conditions_ok b NC). cbn [rbind]. apply begins_first in B. rewrite B.
    destruct (has b "age") eqn:E; [|reflexivity]. exfalso. apply NA, has_in. exact E.
  - intros n l NC B [HA AG] ST. unfold keep_after_RLO. rewrite (conditions_ok b NC). cbn [rbind]. apply begins_first in B. rewrite B.
    rewrite (proj2 (has_in _ _) HA). cbn [negb]. unfold col, from. cbn [rows]. rewrite AG.
    destruct l as [|a l]; [destruct ST as [_ (d & D & _)]; easy|]. rewrite (age_stalls a l ST). reflexivity.
Qed.
Print Assumptions C61_fails.

(** The arrays of the caller are changed: their rows from the onset on are those of the result. *)
Theorem C61_caller : forall b h1 h2 k b' h1' h2', keep_after_RLO (Some b) h1 h2 = Ok k -> returned k = Some (Some b', h1', h2') ->
  exists n, begins b n /\ after k = (Some {| names := names b; rows := firstn n (rows b) ++ rows b' |},
    match h1, h1' with Some t, Some t' => Some {| names := names t; rows := firstn n (rows t) ++ rows t' |} | _, _ => h1 end,
    match h2, h2' with Some t, Some t' => Some {| names := names t; rows := firstn n (rows t) ++ rows t' |} | _, _ => h2 end).
Proof.
  intros b h1 h2 k b' h1' h2' E R. unfold keep_after_RLO in E.
  destruct (conditions_met b) as [cond|] eqn:C; [|discriminate]. cbn [rbind] in E.
  assert (cond = map (cond_row b) (rows b)) as ->.
  { unfold conditions_met in C. destruct (negb (has b "lg_mtransfer_rate")); [discriminate|].
    destruct (negb _); [discriminate|]. injection C as <-. reflexivity. }
  destruct (first_true _) as [n|] eqn:F; [|injection E as <-; discriminate].
  destruct (negb (has b "age")); [discriminate|]. destruct (age_to_remove _) as [a|]; [|discriminate]. cbn [rbind] in E.
  assert (k = _) by (symmetry; injection E; intros X; exact X). subst k. cbn [returned after] in *. exists n. split; [apply begins_first; exact F|].
  injection R as <- <- <-. destruct h1, h2; reflexivity.
Qed.
Print Assumptions C61_caller.

(** Examples: overflow in the second row. *)
Definition ex_row (age rl lg : Q) : record := fun c =>
  if String.eqb c "age" then Some age else if String.eqb c "rl_relative_overflow_1" then Some rl
  else if String.eqb c "lg_mtransfer_rate" then Some lg else None.
Definition ex_bh : table :=
  {| names := ["age"; "rl_relative_overflow_1"; "lg_mtransfer_rate"]; rows := [ex_row 1 (-1) (-99); ex_row 3 0 (-99); ex_row 7 1 (-5)] |}.
Definition ages_of (h : option table) : option (list num) := option_map (fun t => col t "age") h.
Example C61_runs : needed_columns ex_bh /\ begins ex_bh 1 /\ ages_from ex_bh 1 [3; 7]%Q /\ ~ stalls [3; 7]%Q /\
  match keep_after_RLO (Some ex_bh) None None with
  | Ok k => option_map (fun h => ages_of (fst (fst h))) (returned k) = Some (Some [Some 0; Some 4])%Q
            /\ ages_of (fst (fst (after k))) = Some [Some 1; Some 0; Some 4]%Q
  | Raise _ => False
  end.
Proof.
  split; [split; cbn; auto|]. split; [apply begins_first; vm_compute; reflexivity|]. split; [split; [cbn; auto|reflexivity]|]. split.
  - intros [_ (d & [<-|[]] & D)]. vm_compute in D. discriminate.
  - vm_compute. auto.
Qed.
(** So the arguments are not left alone. *)
Theorem C61_arguments_refuted : exists b h1 h2 k, keep_after_RLO (Some b) h1 h2 = Ok k /\ after k <> (Some b, h1, h2).
Proof.
  exists ex_bh, None, None. destruct C61_runs as (_ & _ & _ & _ & R).
  destruct (keep_after_RLO (Some ex_bh) None None) as [k|]; [|contradiction]. exists k. split; [reflexivity|].
  destruct R as [_ R]. intros E. rewrite E in R. vm_compute in R. discriminate.
Qed.
Print Assumptions C61_arguments_refuted.
