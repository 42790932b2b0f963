(** Lemmas about scrubbing. *)
From Coq Require Import String List Bool ZArith QArith Lia Sorted Arith.
From Verif Require Import PyBase PyList MaskList ScrubModel.
Import ListNotations.
Open Scope nat_scope.

(** ** Order *)
Definition before (x y : num) : Prop := exists a b, x = Some a /\ y = Some b /\ (a < b)%Q.
Lemma nlt_before x y : nlt x y = true <-> before x y.
Proof.
  unfold nlt, before. destruct x as [a|], y as [b|]; try (split; [discriminate|intros (? & ? & ? & ? & ?); discriminate]).
  rewrite negb_true_iff. split.
  - intros H. exists a, b. repeat split. apply Qnot_le_lt. intro L. apply Qle_bool_iff in L. congruence.
  - intros (a' & b' & E1 & E2 & L). injection E1 as <-. injection E2 as <-.
    destruct (Qle_bool b a) eqn:E; [|reflexivity]. apply Qle_bool_iff in E. exfalso. apply (Qlt_not_le _ _ L E).
Qed.
Lemma before_trans x y z : before x y -> before y z -> before x z.
Proof.
  intros (a & b & -> & -> & L) (b' & c & E & -> & L'). injection E as <-. exists a, c. repeat split. eapply Qlt_trans; eauto.
Qed.

(** A row comes before another: smaller model number and smaller age. *)
Definition earlier (x y : Z * num) : Prop := (fst x < fst y)%Z /\ before (snd x) (snd y).
Lemma earlier_trans x y z : earlier x y -> earlier y z -> earlier x z.
Proof. intros [A B] [C D]. split; [lia|eapply before_trans; eauto]. Qed.

(** ** The backward walk, by structural recursion *)
Fixpoint sweep (l : list (Z * num)) : list bool * option (Z * num) :=
  match l with
  | [] => ([], None)
  | x :: r =>
    let '(acc, last) := sweep r in
    match last with
    | None => (true :: acc, Some x)
    | Some y => if nlt (snd x) (snd y) && (fst x <? fst y)%Z then (true :: acc, Some x) else (false :: acc, last)
    end
  end.
Lemma sweep_some x r : exists y, snd (sweep (x :: r)) = Some y.
Proof. cbn. destruct (sweep r) as [acc [y|]]; [destruct (_ && _)|]; cbn; eauto. Qed.

Lemma nth_combine {A B} : forall (M : list A) (N : list B) k m t, nth_error M k = Some m -> nth_error N k = Some t -> nth_error (combine M N) k = Some (m, t).
Proof.
  induction M as [|x M IH]; intros [|y N] [|k] m t EM EA; cbn in *; try discriminate; [congruence|auto].
Qed.
Lemma skipn_nth {A} : forall (l : list A) k x, nth_error l k = Some x -> skipn k l = x :: skipn (S k) l.
Proof. induction l as [|z l IH]; intros [|k] x NE; cbn in *; try discriminate; [congruence|]. rewrite (IH k x NE). reflexivity. Qed.
Lemma walk_sweep M A : forall i m t acc, length M = length A -> i <= length M ->
  sweep (skipn i (combine M A)) = (acc, Some (m, t)) ->
  walk_back M A i m t acc = Ok (fst (sweep (combine M A))).
Proof.
  induction i as [|k IH]; intros m t acc L I E.
  - cbn in *. rewrite E. reflexivity.
  - cbn [walk_back].
    destruct (nth_error M k) as [m'|] eqn:EM; [|apply nth_error_None in EM; lia].
    destruct (nth_error A k) as [t'|] eqn:EA; [|apply nth_error_None in EA; lia].
    assert (SK : skipn k (combine M A) = (m', t') :: skipn (S k) (combine M A)).
    { apply skipn_nth, nth_combine; assumption. }
    destruct (nlt t' t && (m' <? m)%Z) eqn:C.
    + apply IH; [exact L|lia|]. rewrite SK. cbn [sweep]. rewrite E. cbn [fst snd]. rewrite C. reflexivity.
    + apply IH; [exact L|lia|]. rewrite SK. cbn [sweep]. rewrite E. cbn [fst snd]. rewrite C. reflexivity.
Qed.
Lemma use_rows_sweep M A : length M = length A -> use_rows M A = Ok (fst (sweep (combine M A))).
Proof.
  intros L. unfold use_rows. destruct M as [|m0 M']; [reflexivity|]. set (M := m0 :: M') in *.
  assert (LM : 0 < length M) by (cbn; lia).
  destruct (nth_error M (length M - 1)) as [m|] eqn:EM; [|apply nth_error_None in EM; lia].
  destruct (nth_error A (length A - 1)) as [t|] eqn:EA; [|apply nth_error_None in EA; lia].
  apply walk_sweep; [exact L|lia|].
  assert (SK : skipn (length M - 1) (combine M A) = [(m, t)]).
  { rewrite <- L in EA. rewrite (skipn_nth _ _ _ (nth_combine _ _ _ _ _ EM EA)). f_equal. apply skipn_all2. rewrite combine_length. lia. }
  rewrite SK. reflexivity.
Qed.

Definition d0 : Z * num := (0%Z, None).
Lemma sweep_spec : forall l,
  length (fst (sweep l)) = length l /\
  (forall i, i < length l -> (nth i (fst (sweep l)) false = true <->
     forall j, i < j < length l -> nth j (fst (sweep l)) false = true -> earlier (nth i l d0) (nth j l d0))) /\
  (forall y, snd (sweep l) = Some y -> exists p, p < length l /\ nth p (fst (sweep l)) false = true /\ nth p l d0 = y /\
     forall j, j < length l -> nth j (fst (sweep l)) false = true -> j = p \/ earlier y (nth j l d0)).
Proof.
  induction l as [|x r (L & K & P)]; [cbn; repeat split; intros; try lia; discriminate|].
  cbn [sweep]. destruct (sweep r) as [acc last] eqn:SW. cbn [fst snd] in *.
  destruct last as [y|].
  - destruct (P y eq_refl) as (p & P1 & P2 & P3 & P4).
    destruct (nlt (snd x) (snd y) && (fst x <? fst y)%Z) eqn:C; cbn [fst snd].
    + apply andb_true_iff in C as [C1 C2]. apply nlt_before in C1. apply Z.ltb_lt in C2.
      assert (XY : earlier x y) by (split; assumption).
      split; [cbn; lia|]. split.
      * intros [|i] I; cbn [length] in *.
        -- split; [|reflexivity]. intros _ [|j] J HJ; [lia|]. cbn in HJ |- *.
           destruct (P4 j ltac:(lia) HJ) as [->|E]; [rewrite P3; exact XY|]. eapply earlier_trans; eauto.
        -- cbn [nth]. rewrite K by lia. split; intros H.
           ++ intros [|j] J HJ; [lia|]. apply H; [lia|exact HJ].
           ++ intros j J HJ. apply (H (S j)); [lia|exact HJ].
      * intros z Z0. injection Z0 as <-. exists 0. cbn [length]. split; [lia|]. split; [reflexivity|]. split; [reflexivity|].
        intros [|j] J HJ; [auto|]. right. cbn in HJ |- *.
        destruct (P4 j ltac:(lia) HJ) as [->|E]; [rewrite P3; exact XY|]. eapply earlier_trans; eauto.
    + split; [cbn; lia|]. split.
      * intros [|i] I; cbn [length] in *.
        -- cbn [nth]. split; [discriminate|]. intros H. exfalso. specialize (H (S p) ltac:(lia) P2). cbn in H. rewrite P3 in H.
           destruct H as [H1 H2]. apply nlt_before in H2. apply Z.ltb_lt in H1. rewrite H1, H2 in C. discriminate.
        -- cbn [nth]. rewrite K by lia. split; intros H.
           ++ intros [|j] J HJ; [lia|]. apply H; [lia|exact HJ].
           ++ intros j J HJ. apply (H (S j)); [lia|exact HJ].
      * intros z Z0. injection Z0 as <-. exists (S p). cbn [length nth]. split; [lia|]. split; [exact P2|]. split; [exact P3|].
        intros [|j] J HJ; [discriminate|]. cbn in HJ |- *. destruct (P4 j ltac:(lia) HJ) as [->|E]; auto.
  - assert (r = []) as ->. { destruct r as [|z r]; [reflexivity|]. destruct (sweep_some z r) as [w W]. rewrite SW in W. discriminate. }
    cbn in SW. injection SW as <-. cbn. split; [reflexivity|]. split.
    + intros i I. split; [intros _ j J; lia|]. intros _. destruct i; [reflexivity|lia].
    + intros z Z0. injection Z0 as <-. exists 0. split; [lia|]. split; [reflexivity|]. split; [reflexivity|].
      intros j J _. left. lia.
Qed.

(** ** Masks *)
Lemma select_select {A} (p : Z -> bool) : forall mask (M : list Z) (T : list A), length mask = length M -> length T = length M ->
  select (map p (select mask M)) (select mask T) = select (map (fun bm => fst bm && p (snd bm)) (combine mask M)) T.
Proof.
  induction mask as [|b mask IH]; intros [|m M] [|t T] L L'; cbn in *; try discriminate; [reflexivity|].
  destruct b; cbn; [destruct (p m); cbn; [f_equal|]|]; apply IH; lia.
Qed.
Lemma nth_mask_combine (p : Z -> bool) : forall mask M i, length mask = length M -> i < length M ->
  nth i (map (fun bm => fst bm && p (snd bm)) (combine mask M)) false = nth i mask false && p (nth i M 0%Z).
Proof.
  induction mask as [|b mask IH]; intros [|m M] [|i] L I; cbn in *; try lia; auto. apply IH; lia.
Qed.
Lemma select_rows {A} : forall keep (l : list A), length keep = length l ->
  Forall2 (fun i x => nth_error l i = Some x) (kept keep) (select keep l).
Proof.
  unfold kept. induction keep as [|b keep IH]; intros [|x l] L; cbn in *; try discriminate; [constructor|].
  rewrite filter_shift. specialize (IH l ltac:(lia)). cbn.
  assert (S2 : Forall2 (fun i y => nth_error (x :: l) i = Some y) (map S (filter (fun i => nth i keep false) (seq 0 (length keep)))) (select keep l)).
  { clear L. induction IH; cbn; constructor; auto. }
  destruct b; [constructor; [reflexivity|exact S2]|exact S2].
Qed.
Lemma select_in keep (M : list Z) z : length keep = length M ->
  (In z (select keep M) <-> exists i, i < length M /\ nth i keep false = true /\ nth i M 0%Z = z).
Proof.
  intros L. rewrite (select_kept 0%Z) by exact L. rewrite in_map_iff. split.
  - intros (i & E & I). apply kept_in in I as [I1 I2]. exists i. repeat split; auto; lia.
  - intros (i & I1 & I2 & I3). exists i. split; [exact I3|]. apply kept_in. split; [lia|exact I2].
Qed.

(** ** Common model numbers *)
Lemma common_fold {A} : forall (scr : list (option (list A * list Z))) c0,
  (exists c, fold_left common_step scr c0 = Some c /\
     forall x, In x c <-> (match c0 with Some c0 => In x c0 | None => True end) /\ forall t m, In (Some (t, m)) scr -> In x m)
  \/ (fold_left common_step scr c0 = None /\ c0 = None /\ forall t m, ~ In (Some (t, m)) scr).
Proof.
  induction scr as [|s scr IH]; intros c0; cbn.
  - destruct c0 as [c|]; [left; exists c; split; [reflexivity|]; intros x; split; [intros H; split; [exact H|easy]|tauto]|right; auto].
  - destruct s as [[t m]|].
    + cbn. destruct c0 as [c|].
      * left. destruct (IH (Some (filter (fun x => existsb (Z.eqb x) m) c))) as [(c' & E & H)|(_ & D & _)]; [|discriminate].
        exists c'. split; [exact E|]. intros x. rewrite H, filter_In, existsb_exists. split.
        -- intros [[H1 (y & Y1 & Y2)] H2]. apply Z.eqb_eq in Y2. subst y. split; [exact H1|].
           intros t' m' [Q|Q]; [injection Q as <- <-; exact Y1|eauto].
        -- intros [H1 H2]. split; [split; [exact H1|exists x; split; [eauto|apply Z.eqb_refl]]|eauto].
      * left. destruct (IH (Some m)) as [(c' & E & H)|(_ & D & _)]; [|discriminate].
        exists c'. split; [exact E|]. intros x. rewrite H. split.
        -- intros [H1 H2]. split; [exact I|]. intros t' m' [Q|Q]; [injection Q as <- <-; exact H1|eauto].
        -- intros [_ H2]. split; eauto.
    + cbn. destruct (IH c0) as [(c' & E & H)|(E & D & F)].
      * left. exists c'. split; [exact E|]. intros x. rewrite H. split; intros [H1 H2]; (split; [exact H1|]).
        -- intros t m [Q|Q]; [discriminate|eauto].
        -- intros t m Q. eauto.
      * right. split; [exact E|]. split; [exact D|]. intros t m [Q|Q]; [discriminate|]. eapply F; eauto.
Qed.

(** Two increasing lists with the same members are the same. *)
Lemma sorted_ext : forall l1 l2 : list Z, StronglySorted Z.lt l1 -> StronglySorted Z.lt l2 -> (forall x, In x l1 <-> In x l2) -> l1 = l2.
Proof.
  induction l1 as [|a l1 IH]; intros l2 S1 S2 E.
  - destruct l2 as [|b l2]; [reflexivity|]. exfalso. apply (E b). left. reflexivity.
  - destruct l2 as [|b l2]; [exfalso; apply (E a); left; reflexivity|].
    inversion S1 as [|? ? S3 S4]; subst. inversion S2 as [|? ? S5 S6]; subst. rewrite Forall_forall in S4, S6.
    assert (a = b).
    { destruct (proj1 (E a) (or_introl eq_refl)) as [->|I1]; [reflexivity|].
      destruct (proj2 (E b) (or_introl eq_refl)) as [->|I2]; [reflexivity|].
      specialize (S6 a I1). specialize (S4 b I2). lia. }
    subst b. f_equal. apply IH; auto. intros x. specialize (E x). split; intros I.
    + destruct (proj1 E (or_intror I)) as [<-|]; [|assumption]. specialize (S4 a I). lia.
    + destruct (proj2 E (or_intror I)) as [<-|]; [|assumption]. specialize (S6 a I). lia.
Qed.
