(** Properties of the selection of binaries of a population file (C180). *)
From Coq Require Import String List Bool ZArith Lia Permutation.
From Verif Require Import PyBase SNNameModel SubsetModel.
Import ListNotations.
Open Scope list_scope.
Open Scope Z_scope.

(** ** What is meant *)
Section Spec.
Variable A : Type.
(** The rows of some binaries *)
Definition rows_of (s : list Z) (l : list (Z * A)) : list (Z * A) := filter (fun p => if in_dec Z.eq_dec (fst p) s then true else false) l.
(** The rows of a binary are together *)
Definition grouped (l : list (Z * A)) : Prop := forall P C R i, l = P ++ C ++ R -> In i (map fst P) -> In i (map fst R) -> forall j, In j (map fst C) -> j = i.
Definition n_rows (l : list (Z * A)) (i : Z) : nat := count_occ Z.eq_dec (map fst l) i.
(** A binary has a row which is looked for *)
Definition wanted (f : Z * A -> bool) (l : list (Z * A)) (i : Z) : Prop := exists a, In (i, a) l /\ f (i, a) = true.
End Spec.
Arguments rows_of {A}. Arguments grouped {A}. Arguments n_rows {A}. Arguments wanted {A}.

(** ** Auxiliary *)
Section Proofs.
Variable A : Type.
Implicit Types l c : list (Z * A).

Lemma fuel_enough : forall n, (1 <= n)%nat -> forall k k' l, (length l <= k)%nat -> (length l <= k')%nat -> chunks_fuel A k n l = chunks_fuel A k' n l.
Proof.
  intros n N. induction k as [|k IH]; intros k' l L L'.
  - destruct l; [|cbn in L; lia]. now destruct k'.
  - destruct k' as [|k']; [destruct l; [reflexivity|cbn in L'; lia]|]. destruct l as [|x l]; [reflexivity|]. cbn [chunks_fuel]. f_equal.
    apply IH; rewrite skipn_length; cbn [length] in *; lia.
Qed.
Lemma chunks_nil : forall n, @chunks A n [] = [].
Proof. reflexivity. Qed.
Lemma chunks_cons : forall n l, (1 <= n)%nat -> l <> [] -> chunks n l = firstn n l :: chunks n (skipn n l).
Proof.
  intros n l N NE. unfold chunks. destruct l as [|x l]; [congruence|]. cbn [length chunks_fuel]. f_equal. apply fuel_enough; auto.
  rewrite skipn_length. cbn [length]. lia.
Qed.
Lemma mem_in : forall i s, mem i s = true <-> In i s.
Proof.
  intros i s. unfold mem. rewrite existsb_exists. split; [intros (x & I & E); apply Z.eqb_eq in E; now subst|]. intro I. exists i. split; auto. apply Z.eqb_refl.
Qed.
Lemma filter_mem : forall s l, filter (fun p => mem (fst p) s) l = rows_of s l.
Proof.
  intros s l. unfold rows_of. apply filter_ext. intros [i a]. cbn. destruct (in_dec Z.eq_dec i s) as [I|I]; [now apply mem_in|].
  destruct (mem i s) eqn:M; auto. apply mem_in in M. contradiction.
Qed.
Lemma add_in : forall s i j, In j (add s i) <-> In j s \/ j = i.
Proof.
  intros s i j. unfold add. destruct (mem i s) eqn:M; cbn; [|intuition]. apply mem_in in M. split; [auto|]. intros [H| ->]; auto.
Qed.
Lemma add_nodup : forall s i, NoDup s -> NoDup (add s i).
Proof. intros s i N. unfold add. destruct (mem i s) eqn:M; auto. constructor; auto. intro I. apply mem_in in I. congruence. Qed.
Lemma update_in : forall l s j, In j (update s l) <-> In j s \/ In j (map fst l).
Proof.
  unfold update. induction l as [|p l IH]; intros s j; cbn [map fold_left]; [cbn; tauto|]. rewrite IH, add_in. cbn. intuition congruence.
Qed.
Lemma update_nodup : forall l s, NoDup s -> NoDup (update s l).
Proof. unfold update. induction l as [|p l IH]; intros s N; cbn [map fold_left]; auto. apply IH. now apply add_nodup. Qed.
Lemma rows_app : forall s l l', rows_of s (l ++ l') = rows_of s l ++ rows_of s l'.
Proof. intros. unfold rows_of. apply filter_app. Qed.
Lemma rows_in : forall s l i, In i (map fst (rows_of s l)) <-> In i s /\ In i (map fst l).
Proof.
  intros s l i. rewrite !in_map_iff. unfold rows_of. split.
  - intros (p & E & I). apply filter_In in I. destruct I as [I J]. destruct (in_dec Z.eq_dec (fst p) s) as [K|K]; [|discriminate]. subst. eauto.
  - intros (I & p & E & J). exists p. split; auto. apply filter_In. split; auto. subst. destruct (in_dec Z.eq_dec (fst p) s); auto.
Qed.
Lemma rows_none : forall s l, (forall i, In i s -> ~ In i (map fst l)) -> rows_of s l = [].
Proof.
  intros s l H. destruct (rows_of s l) as [|p r] eqn:E; auto. exfalso.
  assert (I : In (fst p) (map fst (rows_of s l))) by (rewrite E; now left). apply rows_in in I. destruct I as [I J]. exact (H _ I J).
Qed.
Lemma full : forall s x : list Z, NoDup s -> incl s x -> Nat.eqb (length s) (length x) = true -> incl x s.
Proof. intros s x N I E. apply Nat.eqb_eq in E. apply NoDup_length_incl; auto. lia. Qed.
Lemma nodup_app_l : forall (a b : list Z), NoDup (a ++ b) -> NoDup b /\ forall i, In i a -> ~ In i b.
Proof.
  induction a as [|x a IH]; intros b N; cbn in *; [split; [auto|intros i []]|]. inversion N as [|? ? NI N']; subst. destruct (IH b N') as [P Q]. split; auto.
  intros i [-> |I]; [|auto]. intro J. apply NI. apply in_or_app. now right.
Qed.

Lemma oneline_spec : forall n x, (1 <= n)%nat -> NoDup x -> forall k l inc, (length l <= k)%nat -> NoDup (map fst l) -> NoDup inc -> incl inc x ->
  (forall i, In i inc -> ~ In i (map fst l)) -> get_oneline (Some x) (chunks n l) inc = rows_of x l.
Proof.
  intros n x N NX. induction k as [|k IH]; intros l inc L U NI II D.
  - destruct l; [|cbn in L; lia]. reflexivity.
  - destruct l as [|p l']; [reflexivity|]. set (l := p :: l') in *. rewrite chunks_cons by (auto; discriminate). cbn [get_oneline].
    rewrite filter_mem. set (c' := rows_of x (firstn n l)). rewrite <- (firstn_skipn n l) at 2. rewrite rows_app. fold c'. f_equal.
    assert (NI' : NoDup (update inc c')) by now apply update_nodup.
    assert (II' : incl (update inc c') x). { intros i I. apply update_in in I. destruct I as [I|I]; auto. apply rows_in in I. tauto. }
    assert (UU : NoDup (map fst (firstn n l) ++ map fst (skipn n l))) by (rewrite <- map_app, firstn_skipn; exact U).
    destruct (nodup_app_l _ _ UU) as [U2 DJ].
    assert (D' : forall i, In i (update inc c') -> ~ In i (map fst (skipn n l))).
    { intros i I. apply update_in in I. destruct I as [I|I].
      - intro J. apply (D i I). rewrite <- (firstn_skipn n l), map_app. apply in_or_app. now right.
      - apply rows_in in I. apply DJ. tauto. }
    destruct (Nat.eqb _ _) eqn:E.
    + symmetry. apply rows_none. intros i I. apply D'. exact (full _ _ NI' II' E i I).
    + apply IH; auto. rewrite skipn_length. unfold l in *. cbn [length] in *. lia.
Qed.
Lemma count_all : forall (l : list Z) i, (forall j, In j l -> j = i) -> count_occ Z.eq_dec l i = length l.
Proof.
  induction l as [|j l IH]; intros i H; [reflexivity|]. assert (j = i) by (apply H; now left). subst. rewrite count_occ_cons_eq by reflexivity. cbn. f_equal.
  apply IH. intros k K. apply H. now right.
Qed.
Lemma history_spec : forall n x T, (1 <= n)%nat -> NoDup x -> grouped T -> (forall i, In i x -> (n_rows T i <= S n)%nat) ->
  forall k l P inc stop, (length l <= k)%nat -> T = P ++ l -> NoDup inc -> incl inc x -> (forall i, In i inc -> In i (map fst P)) ->
  (stop = true -> incl x (map fst P)) -> get_history (Some x) (chunks n l) inc stop = rows_of x l.
Proof.
  intros n x T N NX G CNT. induction k as [|k IH]; intros l P inc stop L HT NI II IP ST.
  - destruct l; [|cbn in L; lia]. reflexivity.
  - destruct l as [|p l']; [reflexivity|]. set (l := p :: l') in *. rewrite chunks_cons by (auto; discriminate). cbn [get_history].
    rewrite filter_mem. set (c' := rows_of x (firstn n l)). rewrite <- (firstn_skipn n l) at 2. rewrite rows_app. fold c'. f_equal.
    assert (NI' : NoDup (update inc c')) by now apply update_nodup.
    assert (II' : incl (update inc c') x). { intros i I. apply update_in in I. destruct I as [I|I]; auto. apply rows_in in I. tauto. }
    assert (IP' : forall i, In i (update inc c') -> In i (map fst (P ++ firstn n l))).
    { intros i I. rewrite map_app. apply in_or_app. apply update_in in I. destruct I as [I|I]; [left; auto|right]. apply rows_in in I. tauto. }
    assert (HT' : T = (P ++ firstn n l) ++ skipn n l) by (rewrite <- app_assoc, firstn_skipn; exact HT).
    destruct (Nat.eqb (length (update inc c')) (length x)) eqn:E; cbn [andb orb].
    + destruct stop; cbn [andb orb].
      * symmetry. apply rows_none. intros i I J.
        assert (IPi : In i (map fst P)) by (apply ST; auto).
        assert (ALL : forall j, In j (map fst (firstn n l)) -> j = i).
        { apply (G P (firstn n l) (skipn n l) i); auto. rewrite firstn_skipn. exact HT. }
        assert (LN : length (firstn n l) = n).
        { apply firstn_length_le. destruct (le_lt_dec n (length l)); auto. rewrite skipn_all2 in J by lia. destruct J. }
        specialize (CNT i I). unfold n_rows in CNT. rewrite HT', !map_app, !count_occ_app in CNT.
        rewrite (count_all _ _ ALL), map_length, LN in CNT. apply (count_occ_In Z.eq_dec) in IPi. apply (count_occ_In Z.eq_dec) in J. lia.
      * apply (IH _ (P ++ firstn n l)); auto; [rewrite skipn_length; unfold l in *; cbn [length] in *; lia|].
        intros _ i I. apply IP'. exact (full _ _ NI' II' E i I).
    + rewrite orb_false_r. apply (IH _ (P ++ firstn n l)); auto; [rewrite skipn_length; unfold l in *; cbn [length] in *; lia|].
      intros S i I. rewrite map_app. apply in_or_app. left. apply (ST S). exact I.
Qed.
Lemma all_oneline : forall n l k inc, (1 <= n)%nat -> (length l <= k)%nat -> get_oneline None (chunks n l) inc = l.
Proof.
  intros n l k inc N. revert l. induction k as [|k IH]; intros l L; [destruct l; [reflexivity|cbn in L; lia]|].
  destruct l as [|p l']; [reflexivity|]. rewrite chunks_cons by (auto; discriminate). cbn [get_oneline]. rewrite IH; [apply firstn_skipn|].
  rewrite skipn_length. cbn [length] in *. lia.
Qed.
Lemma all_history : forall n l k inc b, (1 <= n)%nat -> (length l <= k)%nat -> get_history None (chunks n l) inc b = l.
Proof.
  intros n l k inc b N. revert l. induction k as [|k IH]; intros l L; [destruct l; [reflexivity|cbn in L; lia]|].
  destruct l as [|p l']; [reflexivity|]. rewrite chunks_cons by (auto; discriminate). cbn [get_history]. rewrite IH; [apply firstn_skipn|].
  rewrite skipn_length. cbn [length] in *. lia.
Qed.
Lemma wanted_app : forall (f : Z * A -> bool) l l' i, wanted f (l ++ l') i <-> wanted f l i \/ wanted f l' i.
Proof.
  intros f l l' i. unfold wanted. split.
  - intros (a & I & H). apply in_app_or in I. destruct I; [left|right]; eauto.
  - intros [(a & I & H)|(a & I & H)]; exists a; split; auto; apply in_or_app; auto.
Qed.
Lemma wanted_filter : forall (f : Z * A -> bool) l i, In i (map fst (filter f l)) <-> wanted f l i.
Proof.
  intros f l i. rewrite in_map_iff. unfold wanted. split.
  - intros ([j a] & E & I). cbn in E. subst. apply filter_In in I. eauto.
  - intros (a & I & H). exists (i, a). split; auto. apply filter_In. auto.
Qed.
Lemma firstn_incl : forall (n : nat) (l : list Z) i, In i (firstn n l) -> In i l.
Proof. intros n l i H. rewrite <- (firstn_skipn n l). apply in_or_app. now left. Qed.
Lemma firstn_nodup : forall (n : nat) (l : list Z), NoDup l -> NoDup (firstn n l).
Proof.
  induction n as [|n IH]; intros l N; [constructor|]. destruct l as [|x l]; [constructor|]. inversion N as [|? ? NI N']; subst. cbn. constructor; auto.
  intro I. apply NI. eapply firstn_incl; eauto.
Qed.
Lemma select_spec : forall f order fn n, (1 <= n)%nat -> (forall s : list Z, Permutation (order s) s) -> (forall z, fn = Some z -> 0 <= z) ->
  forall k l s P, (length l <= k)%nat -> NoDup s -> (forall i, In i s <-> wanted f P i) -> (forall z, fn = Some z -> Z.of_nat (length s) <= z) ->
  let r := select (filter f) order fn (chunks n l) s in
  NoDup r /\ (forall i, In i r -> wanted f (P ++ l) i) /\ (forall z, fn = Some z -> Z.of_nat (length r) <= z) /\
  ((fn = None \/ exists z, fn = Some z /\ Z.of_nat (length r) < z) -> forall i, wanted f (P ++ l) i -> In i r).
Proof.
  intros f order fn n N PERM POS. induction k as [|k IH]; intros l s P L NS W B.
  - destruct l; [|cbn in L; lia]. cbn. rewrite app_nil_r. split; [exact NS|]. split; [apply W|]. split; [exact B|]. intros _ i. apply W.
  - destruct l as [|p l']; [cbn; rewrite app_nil_r; split; [exact NS|]; split; [apply W|]; split; [exact B|]; intros _ i; apply W|].
    set (l := p :: l') in *. rewrite chunks_cons by (auto; discriminate). cbn [select]. set (s' := update s (filter f (firstn n l))).
    assert (NS' : NoDup s') by now apply update_nodup.
    assert (W' : forall i, In i s' <-> wanted f (P ++ firstn n l) i). { intro i. unfold s'. rewrite update_in, wanted_filter, wanted_app, W. tauto. }
    assert (LE : (length (skipn n l) <= k)%nat) by (rewrite skipn_length; unfold l in *; cbn [length] in *; lia).
    assert (EQ : P ++ l = (P ++ firstn n l) ++ skipn n l) by (rewrite <- app_assoc, firstn_skipn; reflexivity).
    destruct fn as [z|].
    + destruct (Z.leb_spec z (Z.of_nat (length s'))) as [LZ|LZ].
      * specialize (POS z eq_refl). unfold upto. replace (z <? 0) with false by (symmetry; apply Z.ltb_ge; lia).
        assert (LO : length (order s') = length s') by (apply Permutation_length; apply PERM).
        assert (LF : length (firstn (Z.to_nat z) (order s')) = Z.to_nat z) by (apply firstn_length_le; lia). cbv zeta. split; [|split; [|split]].
        -- apply firstn_nodup. eapply Permutation_NoDup; [apply Permutation_sym, PERM|exact NS'].
        -- intros i I. apply firstn_incl in I. apply (Permutation_in _ (PERM s')) in I. apply W' in I. rewrite EQ, wanted_app. auto.
        -- intros z' E. assert (z' = z) by congruence. subst. rewrite LF. lia.
        -- intros [E|(z' & E & H)]; [discriminate|]. assert (z' = z) by congruence. subst. rewrite LF in H. lia.
      * rewrite EQ. apply IH; auto. intros z' E. assert (z' = z) by congruence. subst. lia.
    + rewrite EQ. apply IH; auto. discriminate.
Qed.
End Proofs.

Lemma chunksize_pos : forall fn, (1000 <= Z.to_nat (decide_chunksize fn))%nat.
Proof.
  intros [n|]; unfold decide_chunksize, CHUNKSIZE, CHUNKSIZE_SMALL; [|lia].
  assert (1000 <= Z.min 100000 (Z.max 1000 (n / 10))) by lia. lia.
Qed.

(** ** C180 *)

(** A selector which looks at rows one by one: the tables returned have all the rows, in order, of binaries which have a row looked for: of all of
    them, or of that many as asked for; provided the file has one line for a binary, and its history in one piece of at most 1000 rows *)
Theorem C180_oneline : forall O H order (oneline : list (Z * O)) (history : list (Z * H)) fn f,
  (forall s, Permutation (order s) s) -> (forall z, fn = Some z -> 0 <= z) -> NoDup (map fst oneline) -> grouped history -> (forall i, (n_rows history i <= 1000)%nat) ->
  exists s, get_subsets order oneline history fn (Some (filter f)) None = Ok (rows_of s oneline, rows_of s history) /\ NoDup s /\
    (forall i, In i s -> wanted f oneline i) /\ (forall z, fn = Some z -> Z.of_nat (length s) <= z) /\
    ((fn = None \/ exists z, fn = Some z /\ Z.of_nat (length s) < z) -> forall i, wanted f oneline i -> In i s).
Proof.
  intros O H order oneline history fn f PERM POS U G CNT. pose proof (chunksize_pos fn) as N. set (n := Z.to_nat (decide_chunksize fn)) in *.
  exists (select (filter f) order fn (chunks n oneline) []).
  destruct (select_spec O f order fn n ltac:(lia) PERM POS (length oneline) oneline [] [] (le_n _) (NoDup_nil _)) as (A & B & C & D).
  { intro i. split; [intros []|intros (a & [] & _)]. }
  { intros z E. specialize (POS z E). cbn. lia. }
  split; [|auto]. unfold get_subsets. fold n. cbv zeta. f_equal. f_equal.
  - apply (oneline_spec O n _ ltac:(lia) A (length oneline)); auto; [constructor|intros i []].
  - apply (history_spec H n _ history ltac:(lia) A G) with (k := length history) (P := []); auto.
    + intros i _. specialize (CNT i). lia.
    + constructor.
    + intros i [].
    + discriminate.
Qed.
Theorem C180_history : forall O H order (oneline : list (Z * O)) (history : list (Z * H)) fn f,
  (forall s, Permutation (order s) s) -> (forall z, fn = Some z -> 0 <= z) -> NoDup (map fst oneline) -> grouped history -> (forall i, (n_rows history i <= 1000)%nat) ->
  exists s, get_subsets order oneline history fn None (Some (filter f)) = Ok (rows_of s oneline, rows_of s history) /\ NoDup s /\
    (forall i, In i s -> wanted f history i) /\ (forall z, fn = Some z -> Z.of_nat (length s) <= z) /\
    ((fn = None \/ exists z, fn = Some z /\ Z.of_nat (length s) < z) -> forall i, wanted f history i -> In i s).
Proof.
  intros O H order oneline history fn f PERM POS U G CNT. pose proof (chunksize_pos fn) as N. set (n := Z.to_nat (decide_chunksize fn)) in *.
  exists (select (filter f) order fn (chunks n history) []).
  destruct (select_spec H f order fn n ltac:(lia) PERM POS (length history) history [] [] (le_n _) (NoDup_nil _)) as (A & B & C & D).
  { intro i. split; [intros []|intros (a & [] & _)]. }
  { intros z E. specialize (POS z E). cbn. lia. }
  split; [|auto]. unfold get_subsets. fold n. cbv zeta. f_equal. f_equal.
  - apply (oneline_spec O n _ ltac:(lia) A (length oneline)); auto; [constructor|intros i []].
  - apply (history_spec H n _ history ltac:(lia) A G) with (k := length history) (P := []); auto.
    + intros i _. specialize (CNT i). lia.
    + constructor.
    + intros i [].
    + discriminate.
Qed.
(** Without a selector everything is returned, however many binaries were asked for; two selectors are refused *)
Theorem C180_all : forall O H order (oneline : list (Z * O)) (history : list (Z * H)) fn,
  get_subsets order oneline history fn None None = Ok (oneline, history) /\
  forall f g, get_subsets order oneline history fn (Some f) (Some g) = Raise (OtherError "Exception").
Proof.
  intros O H order oneline history fn. pose proof (chunksize_pos fn) as N. split; [|reflexivity]. unfold get_subsets. cbv zeta. f_equal. f_equal.
  - apply (all_oneline O _ _ (length oneline)); lia.
  - apply (all_history H _ _ (length history)); lia.
Qed.
(** Columns: those, in their order, whose names contain one of the patterns *)
Theorem C180_columns : forall columns ps c, In c (filter_columns columns (Some ps)) <-> In c columns /\ exists p a b, In p ps /\ c = (a ++ p ++ b)%string.
Proof.
  assert (P : forall p s, String.prefix p s = true <-> exists b, s = (p ++ b)%string).
  { induction p as [|x p IH]; intros s.
    - destruct s; split; try reflexivity; intros _; eexists; reflexivity.
    - destruct s as [|y s]; cbn [String.prefix].
      + split; [intro E; discriminate E|intros (b & E); discriminate E].
      + destruct (Ascii.ascii_dec x y) as [-> |NE].
        * rewrite IH. split; intros (b & E); exists b; cbn in *; congruence.
        * split; [intro E; discriminate E|]. intros (b & E). cbn in E. congruence. }
  assert (C : forall p s, contains p s = true <-> exists a b, s = (a ++ p ++ b)%string).
  { intros p s. induction s as [|y s IH]; cbn [contains].
    - rewrite orb_false_r, P. split; [intros (b & E); exists ""%string, b; auto|]. intros (a & b & E). destruct a; [exists b; auto|discriminate].
    - rewrite orb_true_iff, P, IH. split.
      + intros [(b & E)|(a & b & E)]; [exists ""%string, b; auto|exists (String y a), b; cbn; congruence].
      + intros (a & b & E). destruct a as [|z a]; [left; exists b; auto|right; exists a, b; cbn in E; congruence]. }
  intros columns ps c. unfold filter_columns. rewrite filter_In, existsb_exists. split.
  - intros (I & p & J & K). split; auto. apply C in K. destruct K as (a & b & E). exists p, a, b. auto.
  - intros (I & p & a & b & J & E). split; auto. exists p. split; auto. apply C. eauto.
Qed.

(** What else happens: of a long history the end is lost, *)
Definition any {A} (p : Z * A) : bool := true.
Theorem C180_long_refuted : exists (oneline history : list (Z * unit)) h, NoDup (map fst oneline) /\ grouped history /\
  get_subsets (fun s => s) oneline history (Some 1) (Some (filter any)) None = Ok (oneline, h) /\ (length h < length history)%nat.
Proof.
  exists [(1, tt)], (repeat (1, tt) 2500), (repeat (1, tt) 2000). split; [repeat constructor; intros []|]. split.
  - intros P C R i E I J j K. assert (G : forall k, In k (map fst (P ++ C ++ R)) -> k = 1).
    { rewrite <- E. intros k X. apply in_map_iff in X. destruct X as (p & X & Y). apply repeat_spec in Y. now subst. }
    rewrite (G i), (G j); auto; rewrite !map_app; apply in_or_app; [right|left]; auto. apply in_or_app. auto.
  - split; [vm_compute; reflexivity|]. rewrite !repeat_length. lia.
Qed.
(** and so are pieces of a history far from the others, and lines of another binary with the same index; *)
Theorem C180_apart_refuted : exists (oneline history : list (Z * Z)) o h, get_subsets (fun s => s) oneline history (Some 2) (Some (filter (fun p => fst p =? 1))) None = Ok (o, h) /\
  In (1, 2) oneline /\ ~ In (1, 2) o /\ In (1, 2) history /\ ~ In (1, 2) h.
Proof.
  set (t := (1, 1) :: repeat (0, 0) 2200 ++ [(1, 2)]). exists t, t. eexists _, _. split; [vm_compute; reflexivity|].
  split; [right; apply in_or_app; right; now left|]. split; [intros [H|[]]; discriminate|]. split; [right; apply in_or_app; right; now left|]. intros [H|[]]; discriminate.
Qed.
(** a negative number leaves out some binaries of the first part; *)
Theorem C180_negative_refuted : exists (oneline history : list (Z * unit)) o h, get_subsets (fun s => s) oneline history (Some (-1)) (Some (filter any)) None = Ok (o, h) /\
  length oneline = 3%nat /\ length o = 2%nat.
Proof. exists [(1, tt); (2, tt); (3, tt)], []. eexists _, _. split; [vm_compute; reflexivity|]. split; reflexivity. Qed.
(** and a selector that compares rows sees only parts of the table, of a size that depends on the number of binaries asked for *)
Definition last_row {A} (l : list A) : list A := match rev l with x :: _ => [x] | [] => [] end.
Theorem C180_selector_refuted : exists (oneline : list (Z * unit)) o o', length o = 1%nat /\ length o' = 2%nat /\
  get_subsets (fun s => s) oneline (@nil (Z * unit)) None (Some last_row) None = Ok (o, []) /\
  get_subsets (fun s => s) oneline (@nil (Z * unit)) (Some 5000) (Some last_row) None = Ok (o', []).
Proof.
  exists (map (fun k => (Z.of_nat k, tt)) (seq 0 1500)), [(1499, tt)], [(999, tt); (1499, tt)]. split; [reflexivity|]. split; [reflexivity|].
  split; vm_compute; reflexivity.
Qed.
Example C180_nonvacuous : exists h, get_subsets (fun s => s) [(4, true); (7, false); (9, true)] [(4, 1); (4, 2); (7, 1); (9, 1); (9, 2); (9, 3)] (Some 5) (Some (filter snd)) None =
  Ok ([(4, true); (9, true)], h) /\ h = [(4, 1); (4, 2); (9, 1); (9, 2); (9, 3)].
Proof. eexists. split; vm_compute; reflexivity. Qed.

Print Assumptions C180_oneline.
Print Assumptions C180_history.
Print Assumptions C180_all.
Print Assumptions C180_columns.
Print Assumptions C180_long_refuted.
Print Assumptions C180_apart_refuted.
Print Assumptions C180_negative_refuted.
Print Assumptions C180_selector_refuted.
