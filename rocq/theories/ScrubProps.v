(** C60: scrubbing histories from backsteps. *)
From Coq Require Import String List Bool ZArith QArith Lia Sorted Arith.
From Verif Require Import PyBase PyList MaskList ScrubModel ScrubProofs.
Import ListNotations.
Open Scope string_scope.
Open Scope nat_scope.
Open Scope list_scope.

(** ** Specification *)
(** Table number [k] is there, with its model numbers and ages. *)
Definition present {A} (tables : list (option (list A))) (models : list (option (list Z))) ages (k : nat) T M (Ag : list num) : Prop :=
  nth_error tables k = Some (Some T) /\ nth_error models k = Some (Some M) /\ nth_error ages k = Some (Some Ag).
(** All columns of a table are equally long. *)
Definition aligned {A} (tables : list (option (list A))) (models : list (option (list Z))) ages : Prop :=
  forall k T M Ag, present tables models ages k T M Ag -> length T = length M /\ length Ag = length M.

(** A row is good if it is, in model number and in age, before every later good row (so the last row is). *)
Definition good_rows (M : list Z) (Ag : list num) (good : nat -> Prop) : Prop :=
  forall i, good i <-> i < length M /\ forall j, i < j < length M -> good j ->
    (nth i M 0 < nth j M 0)%Z /\ before (nth i Ag None) (nth j Ag None).

(** ** Lemmas *)
Definition mask_of (M : list Z) (Ag : list num) : list bool := fst (sweep (combine M Ag)).
Lemma mask_good M Ag : length Ag = length M ->
  length (mask_of M Ag) = length M /\ good_rows M Ag (fun i => nth i (mask_of M Ag) false = true).
Proof.
  intros L. unfold mask_of. destruct (sweep_spec (combine M Ag)) as (LN & K & _).
  rewrite combine_length, L, Nat.min_id in LN. split; [exact LN|]. intros i.
  assert (NC : forall x, x < length M -> nth x (combine M Ag) d0 = (nth x M 0%Z, nth x Ag None)).
  { intros x X. apply combine_nth. lia. }
  rewrite combine_length, L, Nat.min_id in K. split.
  - intros H. assert (I : i < length M). { destruct (le_lt_dec (length M) i) as [G|]; [|assumption]. rewrite nth_overflow in H by lia. discriminate. }
    split; [exact I|]. intros j J HJ. specialize (proj1 (K i I) H j J HJ). rewrite !NC by lia. unfold earlier. cbn [fst snd]. tauto.
  - intros [I H]. apply K; [exact I|]. intros j J HJ. rewrite !NC by lia. unfold earlier. cbn [fst snd]. apply H; assumption.
Qed.

Lemma scrub_tables_ok {A} : forall tables models ages, @aligned A tables models ages ->
  exists scr, scrub_tables tables models ages = Ok scr /\
    length scr = min (length tables) (min (length models) (length ages)) /\
    (forall k T M Ag, present tables models ages k T M Ag ->
       nth_error scr k = Some (Some (select (mask_of M Ag) T, select (mask_of M Ag) M))) /\
    (forall k, k < length scr -> (forall T M Ag, ~ present tables models ages k T M Ag) -> nth_error scr k = Some None).
Proof.
  induction tables as [|t tables IH]; intros models ages AL.
  { exists []. cbn. repeat split; try lia. intros [|k] T M Ag (P & _); discriminate. }
  destruct models as [|m models].
  { exists []. cbn. repeat split; try lia. intros [|k] T M Ag (_ & P & _); discriminate. }
  destruct ages as [|a ages].
  { exists []. cbn. repeat split; try lia. intros [|k] T M Ag (_ & _ & P); discriminate. }
  destruct (IH models ages) as (scr & E & LN & P1 & P2).
  { intros k T M Ag P. apply (AL (S k) T M Ag). exact P. }
  assert (ST : exists s, scrub_table t m a = Ok s /\
    (forall T M Ag, t = Some T -> m = Some M -> a = Some Ag -> s = Some (select (mask_of M Ag) T, select (mask_of M Ag) M)) /\
    ((forall T M Ag, ~ (t = Some T /\ m = Some M /\ a = Some Ag)) -> s = None)).
  { destruct t as [T|]; [|exists None; repeat split; discriminate].
    destruct m as [M|]; [|exists None; repeat split; discriminate].
    destruct a as [Ag|]; [|exists None; repeat split; discriminate].
    destruct (AL 0 T M Ag) as [L1 L2]; [repeat split; reflexivity|].
    exists (Some (select (mask_of M Ag) T, select (mask_of M Ag) M)). split.
    - unfold scrub_table. rewrite use_rows_sweep by lia. cbn [rbind]. fold (mask_of M Ag).
      destruct (mask_good M Ag L2) as [LM _]. rewrite LM, L1, Nat.eqb_refl. reflexivity.
    - split; [intros; congruence|]. intros H. exfalso. apply (H T M Ag). auto. }
  destruct ST as (s & ES & S1 & S2). exists (s :: scr). cbn [scrub_tables]. rewrite ES. cbn [rbind]. rewrite E. cbn [rbind].
  split; [reflexivity|]. split; [cbn; lia|]. split.
  - intros [|k] T M Ag (Q1 & Q2 & Q3); cbn in *.
    + f_equal. apply S1; congruence.
    + apply P1. repeat split; assumption.
  - intros [|k] K NP; cbn in *.
    + f_equal. apply S2. intros T M Ag (-> & -> & ->). apply (NP T M Ag). repeat split; reflexivity.
    + apply P2; [lia|]. intros T M Ag P. apply (NP T M Ag). exact P.
Qed.

Lemma sorted_map {B} (R : B -> B -> Prop) (f : nat -> B) : forall l, StronglySorted lt l ->
  (forall i j, In i l -> In j l -> i < j -> R (f i) (f j)) -> StronglySorted R (map f l).
Proof.
  induction l as [|x l IH]; intros S H; cbn; [constructor|]. inversion S as [|? ? S1 S2]; subst. constructor.
  - apply IH; [exact S1|]. intros; apply H; try (right; assumption); assumption.
  - apply Forall_forall. intros y Y. apply in_map_iff in Y as (j & <- & J). rewrite Forall_forall in S2.
    apply H; [left; reflexivity|right; exact J|auto].
Qed.

Lemma Forall2_len {B C} (R : B -> C -> Prop) l1 l2 : Forall2 R l1 l2 -> length l1 = length l2.
Proof. induction 1; cbn; congruence. Qed.

(** ** C60 *)
(** Every table that is there is reduced to its good rows whose model number occurs in a good row of every other
    table that is there; the others stay None.  In the result model numbers and ages increase, and all tables have
    the same model numbers. *)
Theorem C60_scrub : forall A tables models ages, @aligned A tables models ages ->
  exists out (idx : nat -> list nat) (good : nat -> nat -> Prop),
    scrub tables models ages = Ok out /\
    length out = min (length tables) (min (length models) (length ages)) /\
    (forall k, k < length out -> (forall T M Ag, ~ present tables models ages k T M Ag) -> nth_error out k = Some None) /\
    (forall k T M Ag, present tables models ages k T M Ag ->
       good_rows M Ag (good k) /\
       (exists rows, nth_error out k = Some (Some rows) /\ Forall2 (fun i x => nth_error T i = Some x) (idx k) rows) /\
       StronglySorted lt (idx k) /\
       (forall i, In i (idx k) <-> good k i /\
          forall l T' M' Ag', present tables models ages l T' M' Ag' -> exists j, good l j /\ nth j M' 0%Z = nth i M 0%Z) /\
       StronglySorted Z.lt (map (fun i => nth i M 0%Z) (idx k)) /\
       StronglySorted before (map (fun i => nth i Ag None) (idx k)) /\
       forall l T' M' Ag', present tables models ages l T' M' Ag' ->
         map (fun i => nth i M 0%Z) (idx k) = map (fun i => nth i M' 0%Z) (idx l)).
Proof.
  intros A tables models ages AL.
  destruct (scrub_tables_ok tables models ages AL) as (scr & E & LN & P1 & P2).
  set (c := match common_models scr with Some c => c | None => [] end).
  set (inc := fun x => existsb (Z.eqb x) c).
  set (msk := fun k => match nth_error models k, nth_error ages k with
                       | Some (Some M), Some (Some Ag) => mask_of M Ag | _, _ => [] end).
  set (mods := fun k => match nth_error models k with Some (Some M) => M | _ => [] end).
  set (idx := fun k => kept (map (fun bm => fst bm && inc (snd bm)) (combine (msk k) (mods k)))).
  set (good := fun k i => nth i (msk k) false = true).
  assert (PK : forall k T M Ag, present tables models ages k T M Ag -> msk k = mask_of M Ag /\ mods k = M /\ length T = length M /\ length Ag = length M
      /\ length (mask_of M Ag) = length M).
  { intros k T M Ag P. destruct (AL _ _ _ _ P) as [A1 A2]. destruct P as (_ & Q2 & Q3). unfold msk, mods. rewrite Q2, Q3.
    destruct (mask_good M Ag A2) as [LM _]. auto. }
  assert (INC : forall k T M Ag, present tables models ages k T M Ag -> forall x, inc x = true <->
      forall l T' M' Ag', present tables models ages l T' M' Ag' -> exists j, good l j /\ nth j M' 0%Z = x).
  { intros k T M Ag P x. unfold inc. rewrite existsb_exists.
    assert (CM : forall y, In y c <-> forall t m, In (Some (t, m)) scr -> In y m).
    { unfold c, common_models. destruct (common_fold scr None) as [(c' & C1 & C2)|(C1 & _ & C3)].
      - rewrite C1. intros y. rewrite C2. tauto.
      - exfalso. eapply C3. eapply nth_error_In. apply (P1 _ _ _ _ P). }
    split.
    - intros (y & Y1 & Y2). apply Z.eqb_eq in Y2. subst y. intros l T' M' Ag' P'.
      destruct (PK _ _ _ _ P') as (B1 & B2 & B3 & B4 & B5).
      assert (I : In x (select (mask_of M' Ag') M')).
      { apply (proj1 (CM x) Y1 (select (mask_of M' Ag') T')). eapply nth_error_In. apply (P1 _ _ _ _ P'). }
      apply select_in in I as (i & I1 & I2 & I3); [|exact B5]. exists i. unfold good. rewrite B1. auto.
    - intros H. exists x. split; [|apply Z.eqb_refl]. apply CM. intros t m I. apply In_nth_error in I as (l & NL).
      assert (LL : l < length scr) by (apply nth_error_Some; congruence).
      assert (PR : exists T' M' Ag', present tables models ages l T' M' Ag').
      { unfold present. destruct (nth_error tables l) as [[T'|]|] eqn:E1.
        2: { rewrite P2 in NL; [discriminate|exact LL|]. intros ? ? ? (Q & _). congruence. }
        2: { apply nth_error_None in E1. lia. }
        destruct (nth_error models l) as [[M'|]|] eqn:E2.
        2: { rewrite P2 in NL; [discriminate|exact LL|]. intros ? ? ? (_ & Q & _). congruence. }
        2: { apply nth_error_None in E2. lia. }
        destruct (nth_error ages l) as [[Ag'|]|] eqn:E3.
        2: { rewrite P2 in NL; [discriminate|exact LL|]. intros ? ? ? (_ & _ & Q). congruence. }
        2: { apply nth_error_None in E3. lia. }
        eauto 6. }
      destruct PR as (T' & M' & Ag' & P'). pose proof (P1 _ _ _ _ P') as N'. rewrite NL in N'.
      destruct (PK _ _ _ _ P') as (B1 & B2 & B3 & B4 & B5).
      assert (m = select (mask_of M' Ag') M') as -> by congruence.
      destruct (H _ _ _ _ P') as (j & J1 & J2). unfold good in J1. rewrite B1 in J1.
      apply select_in; [exact B5|]. exists j. repeat split; auto.
      destruct (le_lt_dec (length M') j) as [G|]; [|assumption]. rewrite nth_overflow in J1 by lia. discriminate. }
  assert (IDX : forall k T M Ag, present tables models ages k T M Ag -> forall i, In i (idx k) <-> good k i /\
      forall l T' M' Ag', present tables models ages l T' M' Ag' -> exists j, good l j /\ nth j M' 0%Z = nth i M 0%Z).
  { intros k T M Ag P i. destruct (PK _ _ _ _ P) as (B1 & B2 & B3 & B4 & B5).
    unfold idx. rewrite kept_in, map_length, combine_length, B1, B2, B5, Nat.min_id.
    unfold good at 1. rewrite B1. split.
    - intros [I1 I2]. rewrite nth_mask_combine in I2 by (auto; lia). apply andb_true_iff in I2 as [I2 I3].
      split; [exact I2|]. apply (INC _ _ _ _ P). exact I3.
    - intros [I1 I2].
      assert (I : i < length M). { destruct (le_lt_dec (length M) i) as [G|]; [|assumption]. rewrite nth_overflow in I1 by lia. discriminate. }
      split; [exact I|]. rewrite nth_mask_combine by (auto; lia). rewrite I1. apply (INC _ _ _ _ P). exact I2. }
  assert (SRT : forall k T M Ag, present tables models ages k T M Ag ->
      good_rows M Ag (good k) /\ StronglySorted lt (idx k) /\
      StronglySorted Z.lt (map (fun i => nth i M 0%Z) (idx k)) /\ StronglySorted before (map (fun i => nth i Ag None) (idx k))).
  { intros k T M Ag P. destruct (PK _ _ _ _ P) as (B1 & B2 & B3 & B4 & B5).
    destruct (mask_good M Ag B4) as [_ G]. assert (GK : good_rows M Ag (good k)) by (unfold good; rewrite B1; exact G).
    assert (SI : StronglySorted lt (idx k)) by apply kept_sorted.
    split; [exact GK|]. split; [exact SI|].
    assert (PW : forall i j, In i (idx k) -> In j (idx k) -> i < j -> (nth i M 0 < nth j M 0)%Z /\ before (nth i Ag None) (nth j Ag None)).
    { intros i j I J L. apply (IDX _ _ _ _ P) in I as [I _]. apply (IDX _ _ _ _ P) in J as [J _].
      apply GK in I as [I1 I2]. apply I2; [|exact J]. apply GK in J as [J1 _]. lia. }
    split; apply sorted_map; auto; intros i j I J L; apply (PW i j I J L). }
  exists (map (final_table (common_models scr)) scr), idx, good.
  split; [unfold scrub; rewrite E; reflexivity|]. rewrite map_length. split; [exact LN|]. split.
  - intros k K NP. rewrite nth_map_error, (P2 k K NP). reflexivity.
  - intros k T M Ag P. destruct (SRT _ _ _ _ P) as (G & SI & SZ & SB). destruct (PK _ _ _ _ P) as (B1 & B2 & B3 & B4 & B5).
    split; [exact G|]. split; [|split; [exact SI|split; [apply (IDX _ _ _ _ P)|split; [exact SZ|split; [exact SB|]]]]].
    + rewrite nth_map_error, (P1 _ _ _ _ P). cbn [option_map final_table]. fold c.
      eexists. split; [reflexivity|]. fold inc. change (fun x => existsb (Z.eqb x) c) with inc. rewrite select_select by lia.
      unfold idx. rewrite B1, B2. apply select_rows. rewrite map_length, combine_length. lia.
    + intros l T' M' Ag' P'. destruct (SRT _ _ _ _ P') as (G' & SI' & SZ' & SB').
      apply sorted_ext; [exact SZ|exact SZ'|].
      assert (HALF : forall k T M Ag l T' M' Ag', present tables models ages k T M Ag -> present tables models ages l T' M' Ag' ->
        forall x, In x (map (fun i => nth i M 0%Z) (idx k)) -> In x (map (fun i => nth i M' 0%Z) (idx l))).
      { clear - IDX. intros k T M Ag l T' M' Ag' P P' x X. apply in_map_iff in X as (i & <- & I).
        apply (IDX _ _ _ _ P) in I as [_ I]. destruct (I _ _ _ _ P') as (j & J1 & J2). apply in_map_iff. exists j.
        split; [exact J2|]. apply (IDX _ _ _ _ P'). split; [exact J1|]. intros ? ? ? ? PP. destruct (I _ _ _ _ PP) as (q & Q1 & Q2).
        exists q. split; [exact Q1|congruence]. }
      intros x. split; [apply (HALF k T M Ag l T' M' Ag' P P')|apply (HALF l T' M' Ag' k T M Ag P' P)].
Qed.
Print Assumptions C60_scrub.

(** The specification determines the good rows. *)
Theorem C60_good_unique : forall M Ag g1 g2, good_rows M Ag g1 -> good_rows M Ag g2 -> forall i, g1 i <-> g2 i.
Proof.
  intros M Ag g1 g2 G1 G2.
  assert (H : forall n i, length M - i <= n -> (g1 i <-> g2 i)).
  { induction n as [|n IH]; intros i L.
    - rewrite (G1 i), (G2 i). split; intros [I _]; lia.
    - rewrite (G1 i), (G2 i). split; intros [I K]; (split; [exact I|]); intros j J GJ; apply K; auto; apply IH; auto; lia. }
  intros i. apply (H (length M - i)). lia.
Qed.
Print Assumptions C60_good_unique.

(** Histories without backsteps and with the same model numbers are returned unchanged. *)
Theorem C60_unchanged : forall A tables models ages, @aligned A tables models ages -> length models = length tables -> length ages = length tables ->
  (forall k, k < length tables -> (exists T M Ag, present tables models ages k T M Ag) \/ nth_error tables k = Some None) ->
  (forall k T M Ag, present tables models ages k T M Ag ->
     forall i j, i < j < length M -> (nth i M 0 < nth j M 0)%Z /\ before (nth i Ag None) (nth j Ag None)) ->
  (forall k T M Ag l T' M' Ag', present tables models ages k T M Ag -> present tables models ages l T' M' Ag' -> M = M') ->
  scrub tables models ages = Ok tables.
Proof.
  intros A tables models ages AL L1 L2 EV INC SAME.
  destruct (C60_scrub A tables models ages AL) as (out & idx & good & E & LN & NO & YES). rewrite E. f_equal.
  apply nth_ext_error. intros k. rewrite L1, L2, !Nat.min_id in LN.
  destruct (le_lt_dec (length tables) k) as [G|K].
  { rewrite (proj2 (nth_error_None out k)) by lia. rewrite (proj2 (nth_error_None tables k)) by lia. reflexivity. }
  destruct (EV k K) as [(T & M & Ag & P)|N].
  - destruct (YES _ _ _ _ P) as (G & (rows & R1 & R2) & SI & IN & _). destruct P as (P1 & P2 & P3). rewrite R1, P1. f_equal. f_equal.
    destruct (AL k T M Ag (conj P1 (conj P2 P3))) as [LT LA].
    assert (ALL : forall l T' M' Ag', present tables models ages l T' M' Ag' -> forall i, i < length M' -> good l i).
    { intros l T' M' Ag' P' i I. destruct (YES _ _ _ _ P') as (G' & _). apply G'. split; [exact I|]. intros j J _. apply (INC _ _ _ _ P' i j). lia. }
    assert (II : forall i, In i (idx k) <-> In i (seq 0 (length T))).
    { intros i. rewrite in_seq. rewrite IN. split.
      - intros [GI _]. apply G in GI as [GI _]. lia.
      - intros I. split; [apply (ALL k T M Ag (conj P1 (conj P2 P3))); lia|]. intros l T' M' Ag' P'.
        pose proof (SAME _ _ _ _ _ _ _ _ (conj P1 (conj P2 P3)) P') as EM. subst M'. exists i. split; [|reflexivity].
        apply (ALL l T' M Ag' P'). lia. }
    assert (IQ : idx k = seq 0 (length T)).
    { assert (SE : forall l1 l2 : list nat, StronglySorted lt l1 -> StronglySorted lt l2 -> (forall x, In x l1 <-> In x l2) -> l1 = l2).
      { clear. induction l1 as [|a l1 IH]; intros l2 S1 S2 E.
        - destruct l2 as [|b l2]; [reflexivity|]. exfalso. apply (E b). left. reflexivity.
        - destruct l2 as [|b l2]; [exfalso; apply (E a); left; reflexivity|].
          inversion S1 as [|? ? S3 S4]; subst. inversion S2 as [|? ? S5 S6]; subst. rewrite Forall_forall in S4, S6.
          assert (a = b).
          { destruct (proj1 (E a) (or_introl eq_refl)) as [->|I1]; [reflexivity|].
            destruct (proj2 (E b) (or_introl eq_refl)) as [->|I2]; [reflexivity|].
            specialize (S6 a I1). specialize (S4 b I2). lia. }
          subst b. f_equal. apply IH; auto. intros x. specialize (E x). split; intros I.
          + destruct (proj1 E (or_intror I)) as [<-|]; [|assumption]. specialize (S4 a I). lia.
          + destruct (proj2 E (or_intror I)) as [<-|]; [|assumption]. specialize (S6 a I). lia. }
      apply SE; [exact SI|apply seq_sorted|exact II]. }
    rewrite IQ in R2. clear - R2. apply nth_ext_error. intros i.
    destruct (nth_error rows i) as [x|] eqn:X.
    + assert (H : forall l1 l2 i x, Forall2 (fun i x => nth_error T i = Some x) l1 l2 -> nth_error l2 i = Some x -> exists j, nth_error l1 i = Some j /\ nth_error T j = Some x).
      { clear. intros l1 l2 i x F. revert i. induction F as [|a b l1 l2 AB F IH]; intros [|i] N; cbn in *; try discriminate.
        - exists a. split; congruence.
        - auto. }
      destruct (H _ _ _ _ R2 X) as (j & J1 & J2).
      assert (I : i < length T). { apply Forall2_len in R2. rewrite seq_length in R2. rewrite R2. apply nth_error_Some. congruence. }
      rewrite nth_seq_error in J1 by exact I. injection J1 as <-. cbn in J2. congruence.
    + apply nth_error_None in X. apply Forall2_len in R2. rewrite seq_length in R2. symmetry. apply nth_error_None. lia.
  - rewrite N. apply NO; [lia|]. intros T M Ag (P & _). congruence.
Qed.
Print Assumptions C60_unchanged.

(** Three histories with a backstep in two of them. *)
Definition ex_models : list (option (list Z)) := [Some [1; 2; 3; 2; 3; 4]; None; Some [1; 2; 2; 3; 4; 5]]%Z.
Definition ex_ages : list (option (list num)) :=
  [Some [Some 0; Some 1; Some 2; Some 1; Some (3 # 2); Some 5]; Some []; Some [Some 0; Some (1 # 2); Some 1; Some (3 # 2); Some 5; None]]%Q.
Definition ex_tables : list (option (list string)) :=
  [Some ["a1"; "a2"; "a3"; "a2'"; "a3'"; "a4"]; Some []; Some ["b1"; "b2"; "b2'"; "b3"; "b4"; "b5"]]%string.
Example C60_runs :
  scrub [nth 0 ex_tables None; nth 1 ex_tables None; Some ["b1"; "b2"; "b2'"; "b3"; "b4"; "b5"]]
        ex_models [nth 0 ex_ages None; nth 1 ex_ages None; Some [Some 0; Some (1 # 2); Some 1; Some (3 # 2); Some 5; Some 6]%Q]
  = Ok [Some ["a1"; "a2'"; "a3'"; "a4"]; None; Some ["b1"; "b2'"; "b3"; "b4"]].
Proof. vm_compute. reflexivity. Qed.
(** If the last age is NaN nothing is before it: one row is left, and nothing is in common here. *)
Example C60_nan_last : scrub ex_tables ex_models ex_ages = Ok [Some []; None; Some []].
Proof. vm_compute. reflexivity. Qed.
Example C60_aligned : aligned ex_tables ex_models ex_ages.
Proof.
  intros k T M Ag (P1 & P2 & P3). destruct k as [|[|[|k]]]; cbn in *; try discriminate; try (destruct k; discriminate).
  - injection P1 as <-. injection P2 as <-. injection P3 as <-. split; reflexivity.
  - injection P1 as <-. injection P2 as <-. injection P3 as <-. split; reflexivity.
Qed.
