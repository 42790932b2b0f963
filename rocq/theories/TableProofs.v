(** Proofs about the tables of a population file. *)
From Coq Require Import String List ZArith Bool Lia PeanoNat.
From Verif Require Import PyBase PyList TableModel TableSpec.
Import ListNotations.
Open Scope nat_scope.
Open Scope list_scope.

Lemma zin_iff : forall i l, zin i l = true <-> In i l.
Proof. intros. unfold zin. destruct (inb_spec Z.eqb_spec i l); split; auto; discriminate. Qed.

(** ** Pieces *)
Lemma skipn_lt : forall A (l : list A) n, 1 <= n -> l <> [] -> length (skipn n l) < length l.
Proof. intros A l n L N. rewrite skipn_length. destruct l; [congruence|]. cbn [length]. lia. Qed.

Lemma pieces_ind : forall A c, 1 <= c -> forall P : list A -> Prop,
  P [] -> (forall l, l <> [] -> P (skipn c l) -> P l) -> forall l, P l.
Proof.
  intros A c L P P0 PS l. remember (length l) as n eqn:E. revert l E.
  induction n as [n IH] using lt_wf_ind. intros l E. destruct l as [|x l]; [exact P0|].
  apply PS; [discriminate|]. apply (IH (length (skipn c (x :: l)))); [|reflexivity].
  subst n. apply skipn_lt; [exact L | discriminate].
Qed.

Lemma chunks_aux_enough : forall A f g c (l : list A), 1 <= c -> length l <= f -> length l <= g ->
  chunks_aux f c l = chunks_aux g c l.
Proof.
  induction f as [|f IH]; intros g c l L F G.
  - destruct l; [|cbn in F; lia]. destruct g; reflexivity.
  - destruct l as [|x l]; [destruct g; reflexivity|]. destruct g as [|g]; [cbn in G; lia|].
    cbn [chunks_aux]. f_equal. assert (length (skipn c (x :: l)) < length (x :: l)) by (apply skipn_lt; [exact L | discriminate]).
    apply IH; [exact L | lia | lia].
Qed.

Lemma chunks_step : forall A c (l : list A), 1 <= c -> l <> [] ->
  chunks c l = firstn c l :: chunks c (skipn c l).
Proof.
  intros A c l L N. unfold chunks. destruct l as [|x l]; [congruence|].
  change (chunks_aux (length (x :: l)) c (x :: l)) with (firstn c (x :: l) :: chunks_aux (length l) c (skipn c (x :: l))).
  f_equal. assert (length (skipn c (x :: l)) < length (x :: l)) by (apply skipn_lt; [exact L | discriminate]).
  cbn [length] in H. apply chunks_aux_enough; [exact L | lia | lia].
Qed.

Lemma chunks_nil : forall A c, chunks c (@nil A) = [].
Proof. reflexivity. Qed.

Lemma concat_chunks : forall A c (l : list A), 1 <= c -> concat (chunks c l) = l.
Proof.
  intros A c l L. induction l as [|l NE IHl] using (pieces_ind _ c L); [reflexivity|].
  rewrite chunks_step by assumption. cbn [concat]. rewrite IHl. apply firstn_skipn.
Qed.

Lemma pd_concat_chunks : forall A c (l : list A), 1 <= c ->
  pd_concat (chunks c l) = match l with [] => Raise ValueError | _ => Ok l end.
Proof.
  intros A c l L. destruct l as [|x l]; [reflexivity|].
  assert (x :: l <> []) as N by discriminate.
  unfold pd_concat. rewrite (chunks_step A c (x :: l) L N).
  rewrite <- (chunks_step A c (x :: l) L N), concat_chunks by exact L. reflexivity.
Qed.

Lemma chunks_nonempty : forall A c (l : list A) p, 1 <= c -> In p (chunks c l) -> p <> [].
Proof.
  intros A c l p L. induction l as [|l NE IHl] using (pieces_ind _ c L); [intros []|].
  rewrite chunks_step by assumption. intros [<-|I]; [|auto].
  destruct l as [|x l]; [congruence|]. destruct c; [lia|]. discriminate.
Qed.

(** ** Selecting by label *)
Lemma keep_filter : forall A (p : A -> bool) l,
  filter p l = map snd (filter fst (combine (map p l) l)).
Proof.
  induction l as [|x l IH]; [reflexivity|]. cbn. destruct (p x); cbn; rewrite IH; reflexivity.
Qed.

Lemma labelled_filter : forall A (want : Z -> Prop) (p : Z -> bool) (t : table A),
  (forall i, p i = true <-> want i) -> labelled want t (filter (fun r => p (fst r)) t).
Proof.
  intros A want p t H. exists (map (fun r => p (fst r)) t). split; [apply map_length|]. split; [apply keep_filter|].
  intros n b r E1 E2. rewrite nth_map_error, E2 in E1. cbn in E1.
  assert (b = p (fst r)) as -> by congruence. apply H.
Qed.

Lemma labelled_fun : forall A (want : Z -> Prop) (t o1 o2 : list (Z * A)),
  labelled want t o1 -> labelled want t o2 -> o1 = o2.
Proof.
  intros A want t o1 o2 (k1 & L1 & -> & H1) (k2 & L2 & -> & H2).
  assert (k1 = k2) as ->; [|reflexivity].
  apply nth_ext_error. intro n.
  destruct (nth_error t n) as [r|] eqn:E.
  - assert (n < length t) as LT by (apply nth_error_Some; congruence).
    destruct (nth_error k1 n) as [b1|] eqn:E1; [|apply nth_error_None in E1; lia].
    destruct (nth_error k2 n) as [b2|] eqn:E2; [|apply nth_error_None in E2; lia].
    specialize (H1 n b1 r E1 E). specialize (H2 n b2 r E2 E).
    destruct b1, b2; try reflexivity; intuition congruence.
  - apply nth_error_None in E.
    destruct (nth_error k1 n) eqn:E1; [assert (n < length k1) by (apply nth_error_Some; congruence); lia|].
    destruct (nth_error k2 n) eqn:E2; [assert (n < length k2) by (apply nth_error_Some; congruence); lia|].
    reflexivity.
Qed.

Lemma select_where_ok : forall A c (t : table A) (want : Z -> Prop) (p : Z -> bool), 1 <= c ->
  (forall i, p i = true <-> want i) ->
  (has_label want t -> exists out, select_where c t p = Ok out /\ labelled want t out) /\
  (~ has_label want t -> select_where c t p = Raise ValueError).
Proof.
  intros A c t want p L H. unfold select_where. rewrite pd_concat_chunks by exact L.
  pose proof (labelled_filter A want p t H) as LF.
  destruct (filter (fun r => p (fst r)) t) as [|x l] eqn:E.
  - split; [|reflexivity]. intros (r & I & W). exfalso.
    assert (In r (filter (fun r => p (fst r)) t)) as I2 by (apply filter_In; split; [exact I | apply H; exact W]).
    rewrite E in I2. exact I2.
  - split; [intros _; eexists; split; [reflexivity | exact LF]|].
    intro NH. exfalso. apply NH.
    assert (In x (filter (fun r => p (fst r)) t)) as I by (rewrite E; left; reflexivity).
    apply filter_In in I. exists x. split; [apply I | apply H, I].
Qed.

Lemma in_zrange : forall a b i, In i (zrange a b) <-> (a <= i < b)%Z.
Proof.
  intros a b i. unfold zrange. rewrite in_map_iff. split.
  - intros (k & <- & I). apply in_seq in I. lia.
  - intros H. exists (Z.to_nat (i - a)). split; [lia|]. apply in_seq. lia.
Qed.

Lemma select_in_ok : forall A c (t : table A) l, 1 <= c -> l <> [] ->
  (has_label (fun i => In i l) t -> exists out, select_in c t l = Ok out /\ labelled (fun i => In i l) t out) /\
  (~ has_label (fun i => In i l) t -> select_in c t l = Raise ValueError).
Proof.
  intros A c t l L N. unfold select_in. destruct l as [|x l]; [congruence|].
  apply select_where_ok; [exact L|]. intro i. apply zin_iff.
Qed.

(** ** Masks *)
Lemma apply_mask_keep : forall A m (l : list A), apply_mask m l = map snd (filter fst (combine m l)).
Proof.
  induction m as [|b m IH]; intros [|x l]; try reflexivity.
  cbn. destruct b; cbn; rewrite IH; reflexivity.
Qed.

Lemma apply_mask_app : forall A m1 m2 (l1 l2 : list A), length m1 = length l1 ->
  apply_mask (m1 ++ m2) (l1 ++ l2) = apply_mask m1 l1 ++ apply_mask m2 l2.
Proof.
  induction m1 as [|b m1 IH]; intros m2 [|x l1] l2 L; try discriminate; [reflexivity|].
  cbn in *. rewrite IH by lia. destruct b; reflexivity.
Qed.

Lemma window_length : forall A a b (l : list A), length (window a b l) = min (b - a) (length l - a).
Proof. intros. unfold window. rewrite firstn_length, skipn_length. reflexivity. Qed.

Lemma nth_window : forall A a b (l : list A) j, j < b - a -> nth_error (window a b l) j = nth_error l (a + j).
Proof. intros. unfold window. rewrite nth_firstn_lt by assumption. apply nth_skipn. Qed.

(** The mask actually used, row by row. *)
Definition used_mask (c : nat) (m : list bool) (from n : nat) : list bool :=
  map (fun p => nth (p / c + p mod c) m false) (seq from n).

Lemma used_block : forall c m i n, 1 <= c -> n <= c -> length (window i (i + c) m) = n ->
  window i (i + c) m = used_mask c m (i * c) n.
Proof.
  intros c m i n L N E. apply nth_ext_error. intro j.
  destruct (Nat.lt_ge_cases j n) as [J|J].
  - rewrite nth_window by lia. unfold used_mask. rewrite nth_map_error, nth_seq_error by exact J.
    cbn [option_map]. replace ((i * c + j) / c) with i; [replace ((i * c + j) mod c) with j|].
    + rewrite window_length in E. apply nth_error_nth'. lia.
    + rewrite Nat.add_comm, Nat.mod_add by lia. symmetry. apply Nat.mod_small. lia.
    + rewrite Nat.add_comm, Nat.div_add by lia. rewrite (Nat.div_small j c) by lia. reflexivity.
  - assert (length (used_mask c m (i * c) n) = n) as U by (unfold used_mask; rewrite map_length, seq_length; reflexivity).
    transitivity (@None bool); [|symmetry]; apply nth_error_None; lia.
Qed.

Section Mask.
  Context {A : Type}.
  Variables (c : nat) (m : list bool).
  Hypothesis C1 : 1 <= c.

  Lemma mask_chunks_ok : forall (l : table A) i,
    (forall j, j * c < length l -> length (window (i + j) (i + j + c) m) = min c (length l - j * c)) ->
    exists out, mask_chunks A i c m (chunks c l) = Ok out /\
      concat out = apply_mask (used_mask c m (i * c) (length l)) l /\ (l <> [] -> out <> []).
  Proof using C1.
    induction l as [|l NE IHl] using (pieces_ind _ c C1); intros i H1.
    - exists []. split; [reflexivity|]. split; [reflexivity | congruence].
    - rewrite chunks_step by assumption. cbn [mask_chunks].
      assert (0 * c < length l) as P0 by (destruct l; [congruence | cbn; lia]).
      pose proof (H1 0 P0) as W. rewrite Nat.add_0_r, Nat.mul_0_l, Nat.sub_0_r in W.
      unfold mask_rows. rewrite W, firstn_length, Nat.eqb_refl. cbn [rbind].
      destruct (IHl (S i)) as (out & E & EC & _).
      { intros j J. rewrite skipn_length in J |- *. replace (S i + j) with (i + S j) by lia.
        rewrite H1 by lia. f_equal. lia. }
      rewrite E. cbn [rbind]. eexists. split; [reflexivity|]. split; [|discriminate].
      cbn [concat]. rewrite EC.
      rewrite (used_block c m i (min c (length l)) C1) by (try lia; exact W).
      set (k := min c (length l)).
      assert (used_mask c m (i * c) (length l)
              = used_mask c m (i * c) k ++ used_mask c m (i * c + k) (length (skipn c l))) as SPL.
      { unfold used_mask. rewrite <- map_app, <- seq_app. f_equal. f_equal. rewrite skipn_length. unfold k. lia. }
      transitivity (apply_mask (used_mask c m (i * c) k ++ used_mask c m (i * c + k) (length (skipn c l)))
                               (firstn c l ++ skipn c l)).
      + rewrite apply_mask_app by (unfold used_mask; rewrite map_length, seq_length, firstn_length; reflexivity).
        f_equal. unfold k. destruct (Nat.le_gt_cases c (length l)) as [LE|GT].
        * replace (min c (length l)) with c by lia. replace (S i * c) with (i * c + c) by lia. reflexivity.
        * assert (skipn c l = []) as -> by (apply skipn_all2; lia). reflexivity.
      + rewrite firstn_skipn, SPL. reflexivity.
  Qed.

  Lemma mask_chunks_bad : forall (l : table A) i,
    (exists j, j * c < length l /\ length (window (i + j) (i + j + c) m) <> min c (length l - j * c)) ->
    mask_chunks A i c m (chunks c l) = Raise ValueError.
  Proof using C1.
    induction l as [|l NE IHl] using (pieces_ind _ c C1); intros i (j & J & B).
    - cbn in J. lia.
    - rewrite chunks_step by assumption. cbn [mask_chunks]. unfold mask_rows at 1.
      destruct (Nat.eqb_spec (length (window i (i + c) m)) (length (firstn c l))) as [E|E]; [|reflexivity].
      cbn [rbind]. rewrite (IHl (S i)); [reflexivity|].
      destruct j as [|j].
      + exfalso. apply B. rewrite firstn_length in E. rewrite Nat.add_0_r, Nat.mul_0_l, Nat.sub_0_r. exact E.
      + exists j. rewrite skipn_length. split; [lia|].
        replace (S i + j) with (i + S j) by lia. intro E2. apply B. rewrite E2. f_equal. lia.
  Qed.
End Mask.

Lemma used_masked : forall A c m (t : list A), length m = length t -> 1 <= c ->
  masked (fun n => nth_error m (n / c + n mod c)) t (apply_mask (used_mask c m 0 (length t)) t).
Proof.
  intros A c m t L C. exists (used_mask c m 0 (length t)).
  assert (length (used_mask c m 0 (length t)) = length t) as U by (unfold used_mask; rewrite map_length, seq_length; reflexivity).
  split; [exact U|]. split; [apply apply_mask_keep|].
  intros n b E. assert (n < length t) as N by (rewrite <- U; apply nth_error_Some; congruence).
  unfold used_mask in E. rewrite nth_map_error, nth_seq_error in E by exact N. cbn [option_map Nat.add] in E.
  assert (b = nth (n / c + n mod c) m false) as -> by congruence.
  apply nth_error_nth'. assert (n / c + n mod c <= n); [|lia].
  pose proof (Nat.div_mod n c ltac:(lia)). nia.
Qed.

Lemma masked_same : forall A (m1 m2 : nat -> option bool) (t out : list A),
  (forall n, n < length t -> m1 n = m2 n) -> masked m1 t out -> masked m2 t out.
Proof.
  intros A m1 m2 t out H (k & L & E & P). exists k. split; [exact L|]. split; [exact E|].
  intros n b N. rewrite <- H; [apply P; exact N|]. rewrite <- L. apply nth_error_Some. congruence.
Qed.

Lemma masked_fun : forall A (m : nat -> option bool) (t o1 o2 : list A),
  masked m t o1 -> masked m t o2 -> o1 = o2.
Proof.
  intros A m t o1 o2 (k1 & L1 & -> & H1) (k2 & L2 & -> & H2).
  assert (k1 = k2) as ->; [|reflexivity].
  apply nth_ext_error. intro n.
  destruct (nth_error k1 n) as [b1|] eqn:E1; destruct (nth_error k2 n) as [b2|] eqn:E2.
  - apply H1 in E1. apply H2 in E2. congruence.
  - assert (n < length k1) by (apply nth_error_Some; congruence). apply nth_error_None in E2. lia.
  - assert (n < length k2) by (apply nth_error_Some; congruence). apply nth_error_None in E1. lia.
  - reflexivity.
Qed.

(** ** groupby *)
Lemma insert_key_in : forall i j l, In j (insert_key i l) <-> j = i \/ In j l.
Proof.
  intros i j l. induction l as [|k l IH]; cbn [insert_key].
  - cbn. intuition auto.
  - destruct (Z.ltb_spec i k); [cbn; intuition auto|].
    destruct (Z.eqb_spec i k) as [->|N]; [cbn; intuition congruence|].
    cbn [In]. rewrite IH. tauto.
Qed.

Fixpoint ascending (l : list Z) : Prop :=
  match l with
  | [] => True
  | x :: l' => (forall y, In y l' -> (x < y)%Z) /\ ascending l'
  end.

Lemma insert_key_asc : forall i l, ascending l -> ascending (insert_key i l).
Proof.
  intros i l. induction l as [|k l IH]; cbn [insert_key ascending].
  - intros _. split; [intros y []| exact I].
  - intros [H1 H2]. destruct (Z.ltb_spec i k).
    + split; [|split; assumption]. intros y [<-|Hy]; [assumption|]. specialize (H1 y Hy). lia.
    + destruct (Z.eqb_spec i k); [split; assumption|].
      split; [|apply IH; exact H2]. intros y Hy. apply insert_key_in in Hy as [->|Hy]; [lia | auto].
Qed.

Lemma ascending_nodup : forall l, ascending l -> NoDup l.
Proof.
  induction l as [|x l IH]; cbn; [constructor|]. intros [H1 H2]. constructor; [|auto].
  intro I. specialize (H1 x I). lia.
Qed.

Lemma sorted_unique_asc : forall l, ascending (sorted_unique l).
Proof. induction l as [|x l IH]; [exact I|]. apply insert_key_asc. exact IH. Qed.
Lemma sorted_unique_in : forall i l, In i (sorted_unique l) <-> In i l.
Proof.
  intros i l. induction l as [|x l IH]; [reflexivity|]. cbn [sorted_unique fold_right].
  change (fold_right insert_key [] l) with (sorted_unique l). rewrite insert_key_in, IH. cbn. intuition auto.
Qed.

Lemma ascending_unique : forall l1 l2, ascending l1 -> ascending l2 -> (forall i, In i l1 <-> In i l2) -> l1 = l2.
Proof.
  induction l1 as [|x l1 IH]; intros [|y l2] A1 A2 H.
  - reflexivity.
  - exfalso. apply (H y). left. reflexivity.
  - exfalso. apply (H x). left. reflexivity.
  - cbn in A1, A2. destruct A1 as [X1 A1], A2 as [Y1 A2].
    assert (x = y) as ->.
    { destruct (proj1 (H x) (or_introl eq_refl)) as [E|I1]; [congruence|].
      destruct (proj2 (H y) (or_introl eq_refl)) as [E|I2]; [congruence|].
      specialize (X1 y I2). specialize (Y1 x I1). lia. }
    f_equal. apply IH; [assumption | assumption|]. intro i. split; intro I.
    + destruct (proj1 (H i) (or_intror I)) as [<-|J]; [specialize (X1 y I); lia | exact J].
    + destruct (proj2 (H i) (or_intror I)) as [<-|J]; [specialize (Y1 y I); lia | exact J].
Qed.

Lemma count_split : forall A (t : table A) l, NoDup l -> (forall r, In r t -> In (fst r) l) ->
  list_sum (map (count_key t) l) = length t.
Proof.
  intros A t l ND. induction t as [|r t IH]; intro H.
  - clear H. unfold count_key. cbn. induction l as [|x l IH]; [reflexivity|].
    inversion ND; subst. apply IH. assumption.
  - assert (forall l', ~ In (fst r) l' -> list_sum (map (count_key (r :: t)) l') = list_sum (map (count_key t) l')) as SAME.
    { induction l' as [|x l' IH']; intro NI; [reflexivity|]. cbn [map].
      change (list_sum (?a :: ?b)) with (a + list_sum b). rewrite IH' by (intro; apply NI; right; assumption).
      f_equal. unfold count_key. cbn [filter]. destruct (Z.eqb_spec (fst r) x) as [E|E]; [|reflexivity].
      exfalso. apply NI. left. congruence. }
    assert (list_sum (map (count_key t) l) = length t) as IH2 by (apply IH; intros q Q; apply H; right; exact Q).
    cbn [length]. rewrite <- IH2.
    assert (In (fst r) l) as I by (apply H; left; reflexivity). clear H IH IH2.
    induction l as [|x l IHl]; [destruct I|]. inversion ND as [|? ? NI ND']; subst. cbn [map].
    change (list_sum (?a :: ?b)) with (a + list_sum b).
    change (list_sum (count_key t x :: map (count_key t) l)) with (count_key t x + list_sum (map (count_key t) l)).
    destruct I as [E|I].
    + subst x. rewrite SAME by exact NI. unfold count_key at 1. cbn [filter]. rewrite Z.eqb_refl. reflexivity.
    + rewrite IHl by assumption. assert (fst r <> x) as NE by (intro; subst; contradiction).
      assert (count_key (r :: t) x = count_key t x) as ->; [|lia].
      unfold count_key. cbn [filter]. destruct (Z.eqb_spec (fst r) x); [contradiction | reflexivity].
Qed.
