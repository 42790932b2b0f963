From Coq Require Import Ascii String List Bool ZArith QArith Lia Permutation DecimalString DecimalNat.
From Verif Require Import PyBase PyList WarnModel WarnSpec WarnProofs PopModel PopSpec.
Import ListNotations.
Local Open Scope string_scope.

(** ** Splitting *)
Lemma chop_concat : forall A sizes (l : list A), (length l <= list_sum sizes)%nat -> concat (chop l sizes) = l.
Proof.
  induction sizes as [|s sizes IH]; intros l H.
  - destruct l; cbn in *; [reflexivity|lia].
  - change (list_sum (s :: sizes)) with (s + list_sum sizes)%nat in H. cbn [chop concat].
    rewrite IH by (rewrite skipn_length; lia). apply firstn_skipn.
Qed.
Lemma chop_length : forall A sizes (l : list A), length (chop l sizes) = length sizes.
Proof. induction sizes; intros l; cbn; auto. Qed.
Lemma chop_sizes : forall A sizes (l : list A), (list_sum sizes <= length l)%nat ->
  map (@length A) (chop l sizes) = sizes.
Proof.
  induction sizes as [|s sizes IH]; intros l H; [reflexivity|].
  change (list_sum (s :: sizes)) with (s + list_sum sizes)%nat in H. cbn [chop map].
  rewrite firstn_length, Nat.min_l by lia. f_equal. apply IH. rewrite skipn_length. lia.
Qed.
Lemma sum_repeat : forall n k, list_sum (repeat k n) = (n * k)%nat.
Proof.
  induction n; intros k; [reflexivity|]. cbn [repeat].
  change (list_sum (k :: repeat k n)) with (k + list_sum (repeat k n))%nat. rewrite IHn. reflexivity.
Qed.

Lemma split_fair : forall A (l : list A) n parts, np_array_split l n = Ok parts ->
  (0 < n)%Z /\ fair_split l (Z.to_nat n) parts.
Proof.
  intros A l n parts H. unfold np_array_split in H.
  destruct (Z.leb_spec n 0) as [|N]; [discriminate|]. split; [exact N|].
  set (k := Z.to_nat n) in *. assert (K : (0 < k)%nat) by lia.
  pose proof (Nat.div_mod (length l) k ltac:(lia)) as DM.
  pose proof (Nat.mod_upper_bound (length l) k ltac:(lia)) as UB.
  set (each := (length l / k)%nat) in *. set (extras := (length l mod k)%nat) in *.
  set (sizes := (repeat (Datatypes.S each) extras ++ repeat each (k - extras))%list) in *.
  assert (Sum : list_sum sizes = length l).
  { unfold sizes. rewrite list_sum_app, !sum_repeat. nia. }
  match type of H with Ok ?x = Ok _ => assert (parts = x) as -> by congruence end. clear H.
  split; [|split].
  - rewrite chop_length. unfold sizes. rewrite app_length, !repeat_length. lia.
  - apply chop_concat. lia.
  - intros p q Hp Hq.
    assert (In_sizes : forall p, In p (chop l sizes) -> (each <= length p <= Datatypes.S each)%nat).
    { intros p0 H0. apply (in_map (@length A)) in H0. rewrite chop_sizes in H0 by lia.
      unfold sizes in H0. apply in_app_or in H0. destruct H0 as [H0|H0]; apply repeat_spec in H0; lia. }
    specialize (In_sizes p Hp) as P1. specialize (In_sizes q Hq) as P2. lia.
Qed.
Lemma split_total : forall A (l : list A) n, (0 < n)%Z -> exists parts, np_array_split l n = Ok parts.
Proof. intros. unfold np_array_split. destruct (Z.leb_spec n 0); [lia|]. eauto. Qed.

(** ** Names of files *)
Lemma app_inj_suffix : forall a b s, a ++ s = b ++ s -> a = b.
Proof.
  assert (L : forall a b, String.length (a ++ b) = (String.length a + String.length b)%nat)
    by (induction a; intros b; cbn; auto).
  induction a as [|c a IH]; intros [|d b] s H.
  - reflexivity.
  - exfalso. assert (String.length s = String.length ((String d b) ++ s)) by (rewrite <- H; reflexivity).
    rewrite L in H0. cbn in H0. lia.
  - exfalso. assert (String.length ((String c a) ++ s) = String.length s) by (rewrite H; reflexivity).
    rewrite L in H0. cbn in H0. lia.
  - cbn in H. injection H as -> H. f_equal. exact (IH _ _ H).
Qed.
Lemma to_uint_nonnil : forall n, Nat.to_uint n <> Decimal.Nil.
Proof.
  intros n H. pose proof (DecimalNat.Unsigned.of_to n) as E. rewrite H in E. cbn in E. subst n.
  discriminate H.
Qed.
Lemma str_nat_inj : forall a b, str_nat a = str_nat b -> a = b.
Proof.
  intros a b H. unfold str_nat in H. apply DecimalNat.Unsigned.to_uint_inj.
  assert (K : NilZero.uint_of_string (NilZero.string_of_uint (Nat.to_uint a))
            = NilZero.uint_of_string (NilZero.string_of_uint (Nat.to_uint b))) by (rewrite H; reflexivity).
  rewrite !NilZero.usu in K by apply to_uint_nonnil. congruence.
Qed.
Lemma batch_name_inj : forall i j r, batch_name i r = batch_name j r -> i = j.
Proof.
  intros i j r H. unfold batch_name in H. apply app_inj_suffix in H. apply str_nat_inj. exact H.
Qed.
Lemma str_nat_head : forall n, exists c s, str_nat n = String c s /\ c <> "l"%char /\ c <> "e"%char.
Proof.
  intro n. unfold str_nat. destruct (Nat.to_uint n); cbn;
    eexists; eexists; (split; [reflexivity|split; discriminate]).
Qed.
Lemma batch_not_leftover : forall j r r', batch_name j r <> leftover_name r'.
Proof.
  intros j r r' H. unfold batch_name, leftover_name in H.
  destruct (str_nat_head j) as (c & s & E & N & _). rewrite E in H. cbn in H. congruence.
Qed.
Lemma batch_not_combined : forall j r r', batch_name j r <> combined_name r'.
Proof.
  intros j r r' H. unfold batch_name, combined_name in H.
  destruct (str_nat_head j) as (c & s & E & _ & N). rewrite E in H. destruct r'; cbn in H; congruence.
Qed.
Lemma leftover_not_combined : forall r r', leftover_name r <> combined_name r'.
Proof. intros r r' H. destruct r'; cbn in H; discriminate. Qed.

(** Files of different processes differ too. *)
Lemma append_assoc : forall a b c : string, (a ++ b) ++ c = a ++ b ++ c.
Proof. induction a; intros; cbn; [reflexivity|]. f_equal. auto. Qed.

(** ** Masses *)
Lemma nansum_cons : forall x l, (nansum (x :: l) == mass x + nansum l)%Q.
Proof.
  intros [q|] l; unfold mass.
  - change (nansum (Some q :: l)) with (q + nansum l)%Q. reflexivity.
  - change (nansum (None :: l)) with (nansum l). ring.
Qed.
Lemma nansum_app : forall a b, (nansum (a ++ b) == nansum a + nansum b)%Q.
Proof.
  induction a as [|x a IH]; intros b.
  - change (nansum []) with 0%Q. rewrite app_nil_l. ring.
  - rewrite <- app_comm_cons, !nansum_cons, IH. ring.
Qed.

Lemma is_single_iff : forall r, is_single r = true <-> h_state r = "initially_single_star".
Proof. intro r. unfold is_single. apply String.eqb_eq. Qed.
Lemma mass_split : forall rows,
  (nansum (map h_m1 (filter is_single rows)) == total_mass (filter is_single rows))%Q
  /\ (nansum (flat_map (fun r => [ h_m1 r; h_m2 r ]) (filter (fun r => negb (is_single r)) rows))
      == total_mass (filter (fun r => negb (is_single r)) rows))%Q
  /\ (total_mass rows == total_mass (filter is_single rows)
        + total_mass (filter (fun r => negb (is_single r)) rows))%Q.
Proof.
  induction rows as [|r rows (A & B & C)]; [cbn; repeat split; ring|].
  cbn [filter]. destruct (is_single r) eqn:E; cbn [negb].
  - assert (M : initial_mass r = mass (h_m1 r)).
    { apply is_single_iff in E. unfold initial_mass. destruct (string_dec _ _); congruence. }
    cbn [map]. rewrite nansum_cons. cbn [total_mass fold_right]. fold (total_mass rows).
    fold (total_mass (filter is_single rows)). rewrite M, A, B, C.
    repeat split; ring.
  - assert (M : initial_mass r = (mass (h_m1 r) + mass (h_m2 r))%Q).
    { unfold initial_mass. destruct (string_dec _ _) as [D|]; [|reflexivity].
      apply is_single_iff in D. congruence. }
    cbn [flat_map app]. rewrite !nansum_cons. cbn [total_mass fold_right]. fold (total_mass rows).
    fold (total_mass (filter (fun r => negb (is_single r)) rows)). rewrite M, A, B, C.
    repeat split; ring.
Qed.

Lemma first_rows_in : forall l seen r, In r (first_rows seen l) <->
  exists a b, l = (a ++ r :: b)%list /\ ~ In (h_index r) (map h_index a) /\ ~ In (h_index r) seen.
Proof.
  induction l as [|x l IH]; intros seen r; cbn [first_rows].
  - split; [intros []|]. intros (a & b & E & _). destruct a; discriminate.
  - destruct (inb_spec Z.eqb_spec (h_index x) seen) as [I|I].
    + rewrite IH. split.
      * intros (a & b & -> & N1 & N2). exists (x :: a), b. cbn. split; [reflexivity|]. split; [|exact N2].
        intros [E|H]; [congruence|auto].
      * intros (a & b & E & N1 & N2). destruct a as [|y a]; cbn in E; injection E as -> E.
        -- contradiction.
        -- exists a, b. cbn in N1. intuition.
    + cbn [In]. rewrite IH. split.
      * intros [<-|(a & b & -> & N1 & N2)].
        -- exists [], l. cbn. auto.
        -- exists (x :: a), b. cbn in *. split; [reflexivity|]. tauto.
      * intros (a & b & E & N1 & N2). destruct a as [|y a]; cbn in E; injection E as -> E.
        -- left. reflexivity.
        -- right. exists a, b. cbn in *. tauto.
Qed.
Lemma first_rows_nodup : forall l seen, NoDup (map h_index (first_rows seen l))
  /\ forall r, In r (first_rows seen l) -> ~ In (h_index r) seen.
Proof.
  induction l as [|x l IH]; intros seen; cbn [first_rows].
  - split; [constructor|intros r []].
  - destruct (inb_spec Z.eqb_spec (h_index x) seen) as [I|I]; [apply IH|].
    destruct (IH (h_index x :: seen)) as [A B]. split.
    + cbn [map]. constructor; [|exact A]. intro H. apply in_map_iff in H. destruct H as (r & E & H).
      apply (B r H). left. auto.
    + intros r [<-|H]; [exact I|]. intro. apply (B r H). right. assumption.
Qed.
Lemma first_rows_sub : forall l seen, exists keep, length keep = length l
  /\ first_rows seen l = map snd (filter fst (combine keep l)).
Proof.
  induction l as [|x l IH]; intros seen; cbn [first_rows].
  - exists []. auto.
  - destruct (inb Z.eqb (h_index x) seen).
    + destruct (IH seen) as (k & A & B). exists (false :: k). cbn. rewrite A, B. auto.
    + destruct (IH (h_index x :: seen)) as (k & A & B). exists (true :: k). cbn. rewrite A, B. auto.
Qed.
Lemma first_rows_ok : forall l, initial_rows l (first_rows [] l).
Proof.
  intro l. split; [apply first_rows_nodup|]. split.
  - intro r. rewrite first_rows_in. unfold first_of_index. split.
    + intros (a & b & E & N & _). eauto.
    + intros (a & b & E & N). exists a, b. cbn. tauto.
  - apply first_rows_sub.
Qed.

Lemma total_mass_app : forall a b, (total_mass (a ++ b) == total_mass a + total_mass b)%Q.
Proof.
  induction a as [|r a IH]; intros b; [change (total_mass []) with 0%Q; rewrite app_nil_l; ring|].
  cbn [app total_mass fold_right].
  fold (total_mass (a ++ b)). fold (total_mass a). rewrite IH. ring.
Qed.

(** ** Warnings around one binary *)
Lemma ctx_step : forall s calls stk, idle s -> (0 < length (regs s))%nat -> no_errors (filters s) ->
  Forall proper calls ->
  exists c s1 s2,
    make_ctx s true true true true = (set_regs s (regs s ++ [[]])%list, c)
    /\ enter (set_regs s (regs s ++ [[]])%list) stk c = (s1, None)
    /\ pwarn_seq calls s1 = (s2, None)
    /\ got_called s2 = match calls with [] => false | _ => true end
    /\ forall v : bool, exists s4, leave (if v then s2 else reset_cache s2) stk = (s4, None)
       /\ undisturbed s s4 /\ (0 < length (regs s4))%nat
       /\ emitted s4 = (emitted s ++ if v then map (dict_of 2) (passed (says (filters s) caught_at) [] calls) else [])%list.
Proof.
  intros s calls stk (I1 & I2 & I3) L NE P.
  eexists. eexists.
  set (st1 := PW (regs s ++ [[]])%list true true true false (length (regs s)) [] (filters s) (emitted s)).
  destruct (catch_all calls st1 []) as (rs & E & Len & Rec & Oth); auto.
  { cbn. rewrite app_length. cbn. lia. }
  { intro k. cbn. unfold reg_at, st1. cbn. rewrite app_nth2, Nat.sub_diag by lia. reflexivity. }
  eexists. split; [reflexivity|]. split.
  { rewrite enter_idle by (cbn; exact I3). cbn. reflexivity. }
  fold st1. split; [exact E|]. split.
  { destruct calls; reflexivity. }
  assert (B2 : forall l, map bump (map (dict_of 0) l) = map (dict_of 2) l).
  { intro l. rewrite map_map. apply map_ext. intros [a b c0 d]. unfold bump, dict_of. cbn.
    f_equal. lia. }
  intro v. destruct calls as [|c calls].
  - exists (PW (regs st1) false true true true 0 [] (filters s) (emitted s)).
    split.
    { destruct v; unfold reset_cache; cbn [set_cache]; rewrite leave_filtered by (exact NE || reflexivity);
        cbn; rewrite ?app_nil_r; reflexivity. }
    split; [|split].
    + split; [repeat split|]. split; [reflexivity|]. unfold reg_at, st1. cbn. rewrite app_nth1 by lia. reflexivity.
    + cbn. rewrite app_length. cbn. lia.
    + cbn. destruct v; rewrite app_nil_r; reflexivity.
  - exists (PW rs false true true true 0 [] (filters s)
      (emitted s ++ if v then map (dict_of 2) (passed (says (filters s) caught_at) [] (c :: calls)) else [])%list).
    split.
    { destruct v; unfold reset_cache; cbn [set_cache]; rewrite leave_filtered by (exact NE || reflexivity).
      - cbn [regs record filters emitted cache set_cache set_regs set_called st1 app]. rewrite B2. reflexivity.
      - cbn [regs record filters emitted cache set_cache set_regs set_called st1 app map]. reflexivity. }
    split; [|split].
    + split; [repeat split|]. split; [reflexivity|].
      assert (N0 : 0%nat <> rloc st1) by (cbn; lia). specialize (Oth _ N0).
      unfold reg_at. cbn [regs]. rewrite Oth. unfold st1. cbn. rewrite app_nth1 by lia. reflexivity.
    + cbn. rewrite Len. cbn. rewrite app_length. cbn. lia.
    + reflexivity.
Qed.

(** ** The manager *)
Section Mgr.
  Variables B G : Type.
  Variable b_index : B -> Z.
  Variable to_df : B -> result (list hrow).
  Variable to_oneline : B -> result orow.
  Variable gen : G -> Z -> G * result B.
  Variable evo : G -> B -> G * B * Z * list wcall * option exn.
  Variable fail : B -> exn -> B.
  Variable warned : B -> B.
  Variable fits_h : list hrow -> list hrow -> bool.
  Variable fits_o : list orow -> list orow -> bool.

  Notation append_one := (PopModel.append_one B b_index).
  Notation remove_one := (PopModel.remove_one B b_index).
  Notation remove_list := (PopModel.remove_list B b_index).

  (** Objects and indices agree, position by position. *)
  Definition aligned (h : list B) (m : mgr) : Prop :=
    map (fun b => option_map (fun x => IInt (b_index x)) (nth_error h b)) (m_bins m) = map Some (m_idx m).

  Lemma ival_eqb_spec : forall a b, reflect (a = b) (ival_eqb a b).
  Proof.
    intros [x|x] [y|y]; cbn; try (constructor; discriminate).
    - destruct (Z.eqb_spec x y); constructor; congruence.
    - destruct (list_eq_dec Z.eq_dec x y); constructor; congruence.
  Qed.

  Lemma list_remove_perm : forall A (eqb : A -> A -> bool), (forall x y, reflect (x = y) (eqb x y)) ->
    forall l x l', list_remove eqb l x = Some l' -> Permutation l (x :: l').
  Proof.
    intros A eqb R. induction l as [|y l IH]; intros x l' H; cbn in H; [discriminate|].
    destruct (R y x) as [->|N].
    - injection H as <-. apply Permutation_refl.
    - destruct (list_remove eqb l x) as [l1|] eqn:E; [|discriminate]. injection H as <-.
      rewrite perm_swap. constructor. apply IH. exact E.
  Qed.
  Lemma list_remove_in : forall A (eqb : A -> A -> bool), (forall x y, reflect (x = y) (eqb x y)) ->
    forall l x, list_remove eqb l x = None <-> ~ In x l.
  Proof.
    intros A eqb R. induction l as [|y l IH]; intros x; cbn; [tauto|].
    destruct (R y x) as [->|N]; [split; [discriminate|tauto]|].
    specialize (IH x). destruct (list_remove eqb l x) as [l1|] eqn:E; cbn.
    - split; [discriminate|]. intro H. exfalso. assert (K : ~ In x l) by tauto. apply IH in K. discriminate.
    - split; [|reflexivity]. intros _ [H|H]; [congruence|]. apply (proj1 IH eq_refl H).
  Qed.

  Lemma append_one_aligned : forall h m b, aligned h m -> (b < length h)%nat -> aligned h (append_one h m b).
  Proof.
    intros h m b A L. unfold aligned, append_one in *. cbn [m_bins m_idx].
    rewrite map_app, A. destruct (nth_error h b) eqn:E.
    - cbn [map]. rewrite E. rewrite map_app. reflexivity.
    - apply nth_error_None in E. lia.
  Qed.

  (** Positions are kept when the removed index occurs only once. *)
  Lemma remove_aligned_gen : forall (h : list B) bs is_ b x bs',
    map (fun b => option_map (fun x => IInt (b_index x)) (nth_error h b)) bs = map Some is_ ->
    nth_error h b = Some x ->
    (forall b' y, In b' bs -> nth_error h b' = Some y -> b_index y = b_index x -> b' = b) ->
    list_remove Nat.eqb bs b = Some bs' ->
    exists is', list_remove ival_eqb is_ (IInt (b_index x)) = Some is'
      /\ map (fun b => option_map (fun x => IInt (b_index x)) (nth_error h b)) bs' = map Some is'.
  Proof.
    intros h bs. induction bs as [|c bs IH]; intros is_ b x bs' A E U R; cbn in R; [discriminate|].
    destruct is_ as [|i is_]; cbn in A; [discriminate|]. injection A as A1 A2.
    destruct (Nat.eqb_spec c b) as [->|N].
    - injection R as <-. rewrite E in A1. cbn in A1. injection A1 as <-.
      cbn. rewrite Z.eqb_refl. eauto.
    - destruct (list_remove Nat.eqb bs b) as [bs1|] eqn:R1; [|discriminate]. injection R as <-.
      destruct (IH is_ b x bs1 A2 E) as (is' & X & Y); auto.
      { intros b' y Hb' Ey Ei. apply (U b' y); auto. right. exact Hb'. }
      assert (NE : ival_eqb i (IInt (b_index x)) = false).
      { destruct (nth_error h c) as [y|] eqn:Ec; [|discriminate]. cbn in A1. injection A1 as <-.
        cbn. destruct (Z.eqb_spec (b_index y) (b_index x)) as [Ei|]; [|reflexivity].
        exfalso. apply N. apply (U c y); auto. left. reflexivity. }
      exists (i :: is'). cbn [list_remove]. rewrite NE, X. split; [reflexivity|].
      cbn [map]. rewrite A1, Y. reflexivity.
  Qed.
  Lemma remove_aligned : forall h m b x, aligned h m -> nth_error h b = Some x -> In b (m_bins m) ->
    (forall b' y, In b' (m_bins m) -> nth_error h b' = Some y -> b_index y = b_index x -> b' = b) ->
    exists m', remove_one h m b = (m', None) /\ aligned h m'
      /\ list_remove Nat.eqb (m_bins m) b = Some (m_bins m')
      /\ m_hdfs m' = m_hdfs m /\ m_odfs m' = m_odfs m.
  Proof.
    intros h m b x A E I U. unfold remove_one.
    destruct (list_remove Nat.eqb (m_bins m) b) as [bs|] eqn:R.
    - rewrite E. destruct (remove_aligned_gen h (m_bins m) (m_idx m) b x bs A E U R) as (is' & X & Y).
      rewrite X. eexists. repeat split; auto.
    - exfalso. apply (list_remove_in _ _ Nat.eqb_spec) in R. contradiction.
  Qed.
  (** With repeated indices the list of indices is still the right collection. *)
  Definition same_indices (h : list B) (m : mgr) : Prop :=
    Permutation (map Some (m_idx m))
      (map (fun b => option_map (fun x => IInt (b_index x)) (nth_error h b)) (m_bins m)).
  Lemma remove_same : forall h m b, same_indices h m -> In b (m_bins m) -> (b < length h)%nat ->
    exists m', remove_one h m b = (m', None) /\ same_indices h m'
      /\ Permutation (m_bins m) (b :: m_bins m').
  Proof.
    intros h m b P I L. unfold remove_one.
    destruct (list_remove Nat.eqb (m_bins m) b) as [bs|] eqn:R.
    - destruct (nth_error h b) as [x|] eqn:E; [|apply nth_error_None in E; lia].
      pose proof (list_remove_perm _ _ Nat.eqb_spec _ _ _ R) as PB.
      assert (P2 : Permutation (map Some (m_idx m))
        (Some (IInt (b_index x)) :: map (fun b => option_map (fun x => IInt (b_index x)) (nth_error h b)) bs)).
      { etransitivity; [exact P|]. apply (Permutation_map (fun b => option_map (fun x => IInt (b_index x)) (nth_error h b))) in PB.
        cbn [map] in PB. rewrite E in PB. exact PB. }
      destruct (list_remove ival_eqb (m_idx m) (IInt (b_index x))) as [is_|] eqn:R2.
      + eexists. split; [reflexivity|]. split; [|exact PB].
        unfold same_indices. cbn [m_idx m_bins].
        apply (list_remove_perm _ _ ival_eqb_spec) in R2.
        apply (Permutation_map Some) in R2. cbn [map] in R2.
        apply Permutation_cons_inv with (a := Some (IInt (b_index x))).
        rewrite <- R2. exact P2.
      + exfalso. apply (list_remove_in _ _ ival_eqb_spec) in R2. apply R2.
        assert (H : In (Some (IInt (b_index x))) (map Some (m_idx m))).
        { eapply Permutation_in; [symmetry; exact P2|]. left. reflexivity. }
        apply in_map_iff in H. destruct H as (y & Ey & Hy). congruence.
    - exfalso. apply (list_remove_in _ _ Nat.eqb_spec) in R. contradiction.
  Qed.
  Lemma remove_absent : forall h m b, ~ In b (m_bins m) -> remove_one h m b = (m, Some ValueError).
  Proof.
    intros h m b N. unfold remove_one. apply (list_remove_in _ _ Nat.eqb_spec) in N. rewrite N. reflexivity.
  Qed.

  (** Removing everything. *)
  Lemma remove_everything : forall h bs is_ hd od,
    map (fun b => option_map (fun x => IInt (b_index x)) (nth_error h b)) bs = map Some is_ ->
    remove_list h (Mgr bs is_ hd od) bs = (Mgr [] [] hd od, None).
  Proof.
    intros h bs. induction bs as [|b bs IH]; intros is_ hd od A.
    - destruct is_; [reflexivity|discriminate].
    - destruct is_ as [|i is_]; [discriminate|]. cbn [map] in A. injection A as A1 A2.
      destruct (nth_error h b) as [x|] eqn:E; [|discriminate]. cbn in A1. injection A1 as <-.
      cbn [remove_list]. unfold remove_one. cbn [m_bins list_remove]. rewrite Nat.eqb_refl.
      rewrite E. cbn [m_idx list_remove ival_eqb]. rewrite Z.eqb_refl. cbn [m_hdfs m_odfs].
      apply IH. exact A2.
  Qed.
End Mgr.
