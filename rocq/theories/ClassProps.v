(** C66: interpolation classes and the combined labels of runs. *)
From Coq Require Import String Ascii List Bool ZArith QArith Sorted Lia.
From Verif Require Import PyBase PyNum PyStr PyList MaskList MTModel MTSpec MTProofs MTProps TFlagModel MTFlagProps.
Import ListNotations.
Open Scope string_scope.
Open Scope nat_scope.
Open Scope list_scope.

(** ** Specification *)
Definition overflow_codes : list string := [ "forced_initial_RLO"; "Terminate because of overflowing initial model" ].
Definition failure_codes : list string := [ "logQ_min_limit"; "min_timestep_limit"; "reach cluster timelimit" ].
Definition stable_codes : list string :=
  [ "Primary has depleted central carbon"; "Secondary has depleted central carbon";
    "Primary got stopped before central carbon depletion"; "Secondary got stopped before central carbon depletion";
    "Primary enters pair-instability regime"; "Secondary enters pair-instability regime";
    "Primary enters pulsational pair-instability regime"; "Secondary enters pulsational pair-instability regime";
    "envelope_mass_limit"; "gamma_center_limit"; "max_age" ].
Definition unstable_codes : list string :=
  [ "Reached maximum mass transfer rate: 1d-1"; "Reached maximum mass transfer rate: Exceeded photon trapping radius";
    "Both stars fill their Roche Lobe and at least one of them is off MS"; "Both stars fill their Roche Lobe and t_kh > t_acc";
    "Terminate due to L2 overflow during case A";
    "overflow from L2, t_kh > t_acc and w > w_crit_lim, donor is star 1"; "overflow from L2, t_kh > t_acc and w > w_crit_lim, donor is star 2" ]
  ++ [ "overflow from L2 (D_L2) distance for q(=Macc/Mdon)>1, donor is star 1"; "overflow from L2 (D_L2) distance for q(=Macc/Mdon)<1, donor is star 1" ]
  ++ flat_map (fun d => [ ("overflow from L2 (R_L2) surface for q(=Macc/Mdon)<1, donor is star " ++ d)%string;
                          ("overflow from L2 (R_L2) surface for q(=Macc/Mdon)>1, donor is star " ++ d)%string ]) [ "1"; "2" ].
(** Both stars donate in an episode list. *)
Definition both (core : list Z) : Prop := (exists c, In c core /\ donor c = 1) /\ (exists c, In c core /\ donor c = 2).
Definition known (core : list Z) : Prop := Forall (fun c => In c (map fst flag_words)) core.

(** ** Pools *)
Lemma in_pool s p : inpool s p = true <-> In s p.
Proof.
  unfold inpool. rewrite existsb_exists. split; [intros (x & I & E); apply String.eqb_eq in E as ->; exact I|].
  intros I. exists s. split; [exact I|apply String.eqb_refl].
Qed.
Lemma pool_same s p q : (forall x, In x p <-> In x q) -> inpool s p = true <-> In s q.
Proof. intros H. rewrite in_pool. apply H. Qed.
Lemma pool_not s p q : (forall x, In x p <-> In x q) -> inpool s p = false <-> ~ In s q.
Proof. intros H. rewrite <- (pool_same s p q H). destruct (inpool s p); split; congruence. Qed.
Lemma same_overflow x : In x TF1_POOL_INITIAL_RLO <-> In x overflow_codes.
Proof. reflexivity. Qed.
Lemma same_failure x : In x TF1_POOL_ERROR <-> In x failure_codes.
Proof. reflexivity. Qed.
Lemma same_stable x : In x TF1_POOL_STABLE <-> In x stable_codes.
Proof. reflexivity. Qed.
Lemma incl_check (p q : list string) : forallb (fun x => existsb (String.eqb x) q) p = true -> forall x, In x p -> In x q.
Proof. intros H x I. rewrite forallb_forall in H. apply in_pool. exact (H x I). Qed.
Lemma same_unstable x : In x TF1_POOL_UNSTABLE <-> In x unstable_codes.
Proof. split; apply incl_check; reflexivity. Qed.

(** ** Characters of a flag *)
Fixpoint has_char (ch : ascii) (s : string) : bool := match s with EmptyString => false | String c r => Ascii.eqb ch c || has_char ch r end.
Lemma py_in_char ch s : py_in (String ch "") s = has_char ch s.
Proof.
  induction s as [|c s IH]; [reflexivity|]. cbn [py_in has_char]. rewrite IH. f_equal. cbn [prefix].
  destruct (ascii_dec ch c) as [-> |N]; [rewrite Ascii.eqb_refl; destruct s; reflexivity|].
  symmetry. apply Ascii.eqb_neq. exact N.
Qed.
Lemma has_char_app ch a b : has_char ch (a ++ b)%string = has_char ch a || has_char ch b.
Proof. induction a as [|c a IH]; [reflexivity|]. cbn [append has_char]. rewrite IH. apply orb_assoc. Qed.
Lemma has_char_concat ch sep ws : has_char ch sep = false -> has_char ch (String.concat sep ws) = existsb (has_char ch) ws.
Proof.
  intros S. induction ws as [|w ws IH]; [reflexivity|]. cbn [String.concat existsb]. destruct ws as [|w' ws].
  - cbn. rewrite orb_false_r. reflexivity.
  - rewrite !has_char_app, S, IH. reflexivity.
Qed.
Lemma word_digits c : In c (map fst flag_words) ->
  has_char "1" (word_of c) = (donor c =? 1) /\ has_char "2" (word_of c) = (donor c =? 2) /\ has_char "/" (word_of c) = false.
Proof.
  intros I.
  assert (A : forallb (fun c => Bool.eqb (has_char "1" (word_of c)) (donor c =? 1) && Bool.eqb (has_char "2" (word_of c)) (donor c =? 2)
                              && negb (has_char "/" (word_of c))) (map fst flag_words) = true) by (vm_compute; reflexivity).
  rewrite forallb_forall in A. specialize (A c I). apply andb_true_iff in A as [A S]. apply andb_true_iff in A as [A B].
  apply eqb_prop in A, B. apply negb_true_iff in S. auto.
Qed.
Lemma text_digit unsure core ch d : known core -> (ch = "1"%char /\ d = 1) \/ (ch = "2"%char /\ d = 2) ->
  has_char ch (flag_text unsure core) = existsb (fun c => donor c =? d) core.
Proof.
  intros K E. unfold flag_text. rewrite has_char_app.
  assert (Q : has_char ch (if unsure then "?" else "") = false) by (destruct E as [[-> _]|[-> _]], unsure; reflexivity).
  rewrite Q. destruct core as [|c core]; [reflexivity|]. rewrite has_char_app.
  assert (Q2 : has_char ch "case_" = false) by (destruct E as [[-> _]|[-> _]]; reflexivity). rewrite Q2. cbn [orb].
  rewrite has_char_concat by (destruct E as [[-> _]|[-> _]]; reflexivity).
  induction (c :: core) as [|x l IH]; [reflexivity|]. inversion K as [|? ? KX KL]; subst. cbn [map existsb]. rewrite IH by exact KL. f_equal.
  destruct (word_digits x KX) as (A & B & _). destruct E as [[-> ->]|[-> ->]]; assumption.
Qed.
Lemma text_both unsure core : known core ->
  py_in "1" (flag_text unsure core) && py_in "2" (flag_text unsure core) = true <-> both core.
Proof.
  intros K. rewrite !py_in_char, (text_digit unsure core "1" 1), (text_digit unsure core "2" 2) by auto.
  rewrite andb_true_iff, !existsb_exists. unfold both. setoid_rewrite Nat.eqb_eq. reflexivity.
Qed.
Lemma case_in b core : core <> [] -> py_in "case" (flag_text b core) = true.
Proof.
  destruct core as [|c core]; [congruence|]. intros _. unfold flag_text. apply py_in_iff.
  exists (if b then "?" else ""), ("_" ++ String.concat "/" (map word_of (c :: core)))%string. reflexivity.
Qed.
Lemma text_not_label unsure core w : In w [ "initial_RLOF"; "no_RLOF"; "contact_during_MS"; "L2_RLOF"; "None" ] -> flag_text unsure core <> w.
Proof.
  intros I. unfold flag_text. repeat (destruct I as [<-|I]; [destruct unsure, core; cbn; discriminate|]). destruct I.
Qed.

(** ** C66: the class *)
Inductive class_of (tf1 tf2 : string) : string -> Prop :=
| cl_initial : In tf1 overflow_codes \/ tf2 = "initial_RLOF" -> class_of tf1 tf2 "initial_MT"
| cl_failed : In tf1 failure_codes -> tf2 <> "initial_RLOF" -> class_of tf1 tf2 "not_converged"
| cl_none : ~ In tf1 (overflow_codes ++ failure_codes) -> tf2 = "no_RLOF" -> class_of tf1 tf2 "no_MT"
| cl_reverse : In tf1 stable_codes -> tf2 <> "initial_RLOF" -> tf2 <> "no_RLOF" ->
    has "case" tf2 -> has "1" tf2 -> has "2" tf2 -> class_of tf1 tf2 "stable_reverse_MT"
| cl_stable : In tf1 stable_codes -> tf2 <> "initial_RLOF" -> tf2 <> "no_RLOF" ->
    ~ (has "case" tf2 /\ has "1" tf2 /\ has "2" tf2) -> class_of tf1 tf2 "stable_MT"
| cl_unstable : In tf1 unstable_codes -> tf2 <> "initial_RLOF" -> tf2 <> "no_RLOF" -> class_of tf1 tf2 "unstable_MT"
| cl_unknown : ~ In tf1 (overflow_codes ++ failure_codes ++ stable_codes ++ unstable_codes) ->
    tf2 <> "initial_RLOF" -> tf2 <> "no_RLOF" -> class_of tf1 tf2 "unknown".
Lemma disjoint_pools (p q : list string) : forallb (fun x => negb (existsb (String.eqb x) q)) p = true -> forall x, In x p -> In x q -> False.
Proof.
  intros H x A B. rewrite forallb_forall in H. specialize (H x A). apply negb_true_iff in H.
  apply (proj2 (in_pool x q)) in B. unfold inpool in B. congruence.
Qed.
Theorem C66_class tf1 tf2 c : infer_interpolation_class tf1 tf2 = c <-> class_of tf1 tf2 c.
Proof.
  assert (D1 : forall x, In x overflow_codes -> In x failure_codes -> False) by (apply disjoint_pools; reflexivity).
  assert (D2 : forall x, In x overflow_codes -> In x stable_codes -> False) by (apply disjoint_pools; reflexivity).
  assert (D3 : forall x, In x overflow_codes -> In x unstable_codes -> False) by (apply disjoint_pools; reflexivity).
  assert (D4 : forall x, In x failure_codes -> In x stable_codes -> False) by (apply disjoint_pools; reflexivity).
  assert (D5 : forall x, In x failure_codes -> In x unstable_codes -> False) by (apply disjoint_pools; reflexivity).
  assert (D6 : forall x, In x stable_codes -> In x unstable_codes -> False) by (apply disjoint_pools; reflexivity).
  assert (FUN : class_of tf1 tf2 (infer_interpolation_class tf1 tf2)).
  { unfold infer_interpolation_class.
    destruct (inpool tf1 TF1_POOL_INITIAL_RLO) eqn:A1; [apply (pool_same _ _ _ same_overflow) in A1; constructor 1; auto|].
    apply (pool_not _ _ _ same_overflow) in A1. cbn [orb].
    assert (P1 : forall w, inpool tf2 [w] = true <-> tf2 = w) by (intros w; rewrite in_pool; cbn; intuition).
    assert (P0 : forall w, inpool tf2 [w] = false <-> tf2 <> w) by (intros w; rewrite <- P1; destruct (inpool tf2 [w]); split; congruence).
    unfold TF2_POOL_INITIAL_RLO, TF2_POOL_NO_RLO.
    destruct (inpool tf2 [ "initial_RLOF" ]) eqn:A2; [apply P1 in A2; constructor 1; auto|]. apply P0 in A2.
    destruct (inpool tf1 TF1_POOL_ERROR) eqn:A3; [apply (pool_same _ _ _ same_failure) in A3; constructor 2; auto|].
    apply (pool_not _ _ _ same_failure) in A3.
    destruct (inpool tf2 [ "no_RLOF" ]) eqn:A4; [apply P1 in A4; constructor 3; [rewrite in_app_iff; tauto|exact A4]|]. apply P0 in A4.
    destruct (inpool tf1 TF1_POOL_STABLE) eqn:A5.
    - apply (pool_same _ _ _ same_stable) in A5. destruct (py_in "case" tf2 && py_in "1" tf2 && py_in "2" tf2) eqn:B.
      + apply andb_true_iff in B as [B B3]. apply andb_true_iff in B as [B1 B2]. apply py_in_iff in B1, B2, B3. constructor 4; auto.
      + constructor 5; auto. intros (B1 & B2 & B3). apply py_in_iff in B1, B2, B3. rewrite B1, B2, B3 in B. discriminate.
    - apply (pool_not _ _ _ same_stable) in A5. destruct (inpool tf1 TF1_POOL_UNSTABLE) eqn:A6.
      + apply (pool_same _ _ _ same_unstable) in A6. constructor 6; auto.
      + apply (pool_not _ _ _ same_unstable) in A6. constructor 7; auto. rewrite !in_app_iff. tauto. }
  split; [intros <-; exact FUN|]. intros H.
  specialize (D1 tf1). specialize (D2 tf1). specialize (D3 tf1). specialize (D4 tf1). specialize (D5 tf1). specialize (D6 tf1).
  assert (NI : "initial_RLOF" <> "no_RLOF") by discriminate.
  destruct FUN, H; try reflexivity; exfalso; rewrite ?in_app_iff in *; try tauto;
    repeat match goal with X : _ \/ _ |- _ => destruct X end; try tauto; congruence.
Qed.
Print Assumptions C66_class.

(** ** Reverse mass transfer *)
Lemma stutters_incl2 A (s l : list A) : stutters s l -> forall x, In x l -> In x s.
Proof.
  induction 1 as [|x n s l H IH]; intros y I; [exact I|]. apply in_app_or in I as [I|I]; [|right; auto].
  apply repeat_spec in I as ->. left. reflexivity.
Qed.
Lemma summary_core sh (unsure : bool) core : ~ In 0%Z sh -> (unsure = true <-> In 9%Z sh) ->
  is_summary 9%Z 0%Z sh ((if unsure then [9%Z] else []) ++ core) -> forall c, In c core <-> In c sh /\ c <> 9%Z.
Proof.
  intros N0 U (front & core' & kept & E & Y & N & (keep & K & EK) & Z0 & ST).
  assert (core' = core) as ->.
  { destruct unsure; [rewrite (Y (proj1 U eq_refl)) in E|rewrite N in E by (rewrite <- U; discriminate)]; cbn in E; congruence. }
  intros c. assert (KP : In c kept <-> In c sh /\ c <> 9%Z).
  { rewrite EK, filter_In. split; intros [A B]; (split; [exact A|]).
    - intros ->. rewrite (proj2 (K 9%Z)) in B by tauto. discriminate.
    - destruct (keep c) eqn:KC; [reflexivity|]. apply K in KC as [-> | ->]; contradiction. }
  rewrite <- KP. destruct kept as [|k kept'] eqn:KE.
  - destruct (Z0 eq_refl) as [_ Q]. rewrite (Q N0). reflexivity.
  - destruct ST as [ST _]; [discriminate|]. split; [eapply stutters_incl; exact ST|eapply stutters_incl2; exact ST].
Qed.
Lemma shift_donor l sh i c : shifted l sh -> code_ok c -> nth_error l i = Some c -> exists c', nth_error sh i = Some c' /\ donor c' = donor c.
Proof.
  intros [_ H] O E. eexists. split; [apply H; exact E|]. destruct (code_ok_donor c O) as [[D _]|[D _]]; rewrite D; cbn [Nat.eqb]; apply latest_donor; auto.
Qed.

Lemma forall2_nth A B (P : A -> B -> Prop) l l' : Forall2 P l l' ->
  (forall k a, nth_error l k = Some a -> exists b, nth_error l' k = Some b /\ P a b) /\
  (forall k b, nth_error l' k = Some b -> exists a, nth_error l k = Some a /\ P a b).
Proof.
  induction 1 as [|a b l l' H F [I1 I2]]; split; intros [|k] x E; try discriminate; cbn in *.
  - injection E as <-. eauto.
  - eauto.
  - injection E as <-. eauto.
  - eauto.
Qed.
Lemma state_word_classified s w : state_word s w -> classified s.
Proof. intros []; unfold classified; tauto. Qed.
Lemma case_code_donor d s c : case_code d s c -> donor c = match d with Star1 => 1 | Star2 => 2 end.
Proof.
  intros H. assert (O := case_code_ok _ _ _ H). destruct d; cbn [case_code] in H; apply base_code_in in H; unfold donor; cbn [In] in H.
  - rewrite (proj2 (Z.leb_le c 9)) by lia. reflexivity.
  - rewrite (proj2 (Z.leb_gt c 9)), (proj2 (Z.leb_le c 19)) by lia. reflexivity.
Qed.
Lemma sorted_pairs (l : list (nat * star)) : StronglySorted lt (map fst l) -> forall a b p q, nth_error l a = Some p -> nth_error l b = Some q ->
  fst p < fst q -> a < b.
Proof.
  induction l as [|x l IH]; intros S [|a] [|b] p q A B L; try discriminate; cbn in *.
  - exfalso. assert (p = q) by congruence. subst. lia.
  - lia.
  - exfalso. inversion S as [|? ? _ F]. subst. rewrite Forall_forall in F. injection B as <-.
    assert (fst x < fst p) by (apply F; apply in_map; eapply nth_error_In; eauto). lia.
  - inversion S; subst. assert (a < b) by eauto. lia.
Qed.

Section Reverse.
Variables (fsub : num -> num -> num) (round10 : num -> num) (rel : num).
Variables (bh : list brow) (h1 h2 : option history).
(** The first row where star 1 donates has a state with a mass-transfer case. *)
Definition first_classified : Prop := exists i r s, nth_error bh i = Some r /\ donates Star1 r /\
  (forall j r', (j < i)%nat -> nth_error bh j = Some r' -> ~ donates Star1 r') /\
  state_at fsub round10 rel bh h1 h2 Star1 i s /\ classified s.
Definition star_2_donates : Prop := exists i r, nth_error bh i = Some r /\ donates Star2 r.

Theorem C66_reverse_run start tf1 : In tf1 stable_codes -> (forall r, In r bh -> ~ contact r) ->
  (exists i r d, nth_error bh i = Some r /\ donates d r) ->
  (start = true \/ forall r d, nth_error bh 0 = Some r -> ~ donates d r) -> states_known fsub round10 rel bh h1 h2 ->
  exists tf2, get_mass_transfer_flag fsub round10 rel bh h1 h2 start (Some tf1) = Ok tf2 /\
    (infer_interpolation_class tf1 tf2 = "stable_reverse_MT" <-> star_2_donates /\ first_classified) /\
    (infer_interpolation_class tf1 tf2 = "stable_MT" <-> ~ (star_2_donates /\ first_classified)).
Proof.
  intros T C D ST K.
  assert (U : undecided (Some tf1)).
  { intros s E I. injection E as <-. revert I. change (In tf1 (failure_codes ++ overflow_codes) -> False). intros I. apply in_app_or in I as [I|I].
    - revert I. apply (disjoint_pools stable_codes failure_codes); [reflexivity|exact T].
    - revert I. apply (disjoint_pools stable_codes overflow_codes); [reflexivity|exact T]. }
  destruct (C65_summary fsub round10 rel bh h1 h2 start (Some tf1) U C D ST K) as (rows & codes & sh & unsure & core & [RS RI] & F2 & SH & SU & UN & FE).
  assert (OKC : Forall code_ok codes).
  { clear -F2. induction F2 as [|p c l l' (s & _ & H) _ IH]; constructor; [eapply case_code_ok; exact H|exact IH]. }
  assert (OKS := shifted_ok _ _ SH OKC). rewrite Forall_forall in OKC, OKS.
  assert (N0 : ~ In 0%Z sh) by (intros I; apply OKS in I; unfold code_ok in I; cbn in I; lia).
  assert (CORE := summary_core sh unsure core N0 UN SU).
  assert (KN : known core).
  { apply Forall_forall. intros c I. apply CORE in I as [I N]. apply OKS in I. unfold code_ok in I. unfold flag_words. cbn [In map fst] in *. lia. }
  destruct (forall2_nth _ _ _ _ _ F2) as [G1 G2].
  exists (flag_text unsure core). split; [exact FE|].
  assert (B : both core <-> star_2_donates /\ first_classified).
  { unfold both. rewrite and_comm. split.
    - intros [(c2 & I2 & D2) (c1 & I1 & D1)]. apply CORE in I2 as [I2 _]. apply CORE in I1 as [I1 N1]. split.
      + apply In_nth_error in I2 as [k I2]. assert (LK : k < length codes) by (rewrite <- (proj1 SH); apply nth_error_Some; congruence).
        destruct (nth_error codes k) as [c|] eqn:Ec; [|apply nth_error_None in Ec; lia].
        destruct (shift_donor codes sh k c SH) as (c' & E' & DD); [apply OKC; eapply nth_error_In; eauto|exact Ec|].
        assert (donor c = 2) by congruence. destruct (G2 k c Ec) as ([i d] & Er & s & Ss & Cc). apply case_code_donor in Cc as Dc. cbn [fst snd] in *.
        destruct d; [congruence|]. apply nth_error_In in Er. apply RI in Er as (r & X & Y). exists i, r. auto.
      + apply In_nth_error in I1 as [k I1]. assert (LK : k < length codes) by (rewrite <- (proj1 SH); apply nth_error_Some; congruence).
        destruct (nth_error codes k) as [c|] eqn:Ec; [|apply nth_error_None in Ec; lia].
        destruct (shift_donor codes sh k c SH) as (c' & E' & DD); [apply OKC; eapply nth_error_In; eauto|exact Ec|].
        assert (Dc : donor c = 1) by congruence.
        (** the first code of star 1 *)
        assert (FST : exists k0 c0, nth_error codes k0 = Some c0 /\ donor c0 = 1 /\ k0 <= k /\ forall j c', j < k0 -> nth_error codes j = Some c' -> donor c' <> 1).
        { clear -Ec Dc. revert k c Ec Dc. induction codes as [|x l IH]; intros [|k] c Ec Dc; try discriminate.
          - exists 0, c. repeat split; [exact Ec|exact Dc|lia|intros; lia].
          - cbn in Ec. destruct (Nat.eq_dec (donor x) 1) as [Dx|Dx].
            + exists 0, x. repeat split; [exact Dx|lia|intros; lia].
            + destruct (IH k c Ec Dc) as (k0 & c0 & A & B & L & M). exists (S k0), c0. repeat split; [exact A|exact B|lia|].
              intros [|j] c' J E; cbn in E; [congruence|]. apply (M j c'); [lia|exact E]. }
        destruct FST as (k0 & c0 & E0 & D0 & L0 & M0). destruct (G2 k0 c0 E0) as ([i d] & Er & s & Ss & Cc). apply case_code_donor in Cc as Dd. cbn [fst snd] in *.
        destruct d; [|congruence]. apply nth_error_In in Er as Ir. apply RI in Ir as (r & X & Y). exists i, r, s.
        split; [exact X|]. split; [exact Y|]. split; [|split; [exact Ss|]].
        * intros j r' J X' Y'. assert (Ij : In (j, Star1) rows) by (apply RI; eauto). apply In_nth_error in Ij as [a Ea].
          assert (LT : a < k0) by (eapply (sorted_pairs rows RS a k0 (j, Star1) (i, Star1)); eauto).
          destruct (G1 a _ Ea) as (ca & Eca & sa & _ & Ca). apply case_code_donor in Ca. cbn [snd] in Ca. exact (M0 a ca LT Eca Ca).
        * destruct Cc as [(w & _ & W)|[-> _]]; [exact (state_word_classified s w W)|]. exfalso. apply N1.
          pose proof (mt_shift_after_undetermined codes sh SH k0 k c L0 E0 Ec Dc) as Q. congruence.
    - intros [(i2 & r2 & X2 & Y2) (i & r & s & X & Y & M & Ss & CL)]. split.
      + assert (I : In (i2, Star2) rows) by (apply RI; eauto). apply In_nth_error in I as [k Er]. destruct (G1 k _ Er) as (c & Ec & s2 & _ & Cc).
        apply case_code_donor in Cc. cbn [snd] in Cc.
        destruct (shift_donor codes sh k c SH) as (c' & E' & DD); [apply OKC; eapply nth_error_In; eauto|exact Ec|].
        exists c'. split; [|congruence]. apply CORE. split; [eapply nth_error_In; eauto|]. intros ->. rewrite Cc in DD. discriminate.
      + assert (I : In (i, Star1) rows) by (apply RI; eauto). apply In_nth_error in I as [k Er]. destruct (G1 k _ Er) as (c & Ec & s' & Ss' & Cc).
        cbn [fst snd] in *. assert (s' = s) as -> by (unfold state_at in *; congruence). apply case_code_donor in Cc as Dc. cbn in Cc.
        assert (N9 : c <> 9%Z).
        { intros ->. destruct Cc as [(w & W & _)|[_ W]]; [|contradiction]. unfold case_names in W. cbn in W. intuition congruence. }
        assert (Q : nth_error sh k = Some c).
        { destruct SH as [_ SH]. rewrite (SH k c Ec). rewrite Dc. cbn [Nat.eqb]. f_equal. apply Z.le_antisymm.
          - apply latest_le; [destruct (code_ok_donor c) as [[_ Q]|[Q _]]; [apply OKC; eapply nth_error_In; eauto|cbn; lia|congruence]|].
            intros x Ix Dx. apply In_nth_error in Ix as [a Ea].
            assert (La : a < S k). { assert (a < length (firstn (S k) codes)) by (apply nth_error_Some; congruence). rewrite firstn_length in H. lia. }
            rewrite nth_firstn_lt in Ea by exact La. destruct (Nat.eq_dec a k) as [-> |NA]; [assert (x = c) by congruence; subst; lia|].
            exfalso. destruct (G2 a x Ea) as ([j d] & Ej & sj & _ & Cj). apply case_code_donor in Cj. cbn [snd] in Cj.
            destruct d; [|congruence]. apply nth_error_In in Ej as Ij. apply RI in Ij as (rj & Xj & Yj).
            apply (M j rj); [|exact Xj|exact Yj].
            destruct (lt_eq_lt_dec j i) as [[LJ|EJ]|LJ]; [exact LJ|subst j|].
            + exfalso. apply NA. assert (ND : NoDup (map fst rows)).
              { clear -RS. induction RS as [|x l S IH F]; constructor; [|exact IH]. intros I. rewrite Forall_forall in F. specialize (F x I). lia. }
              apply (proj1 (NoDup_nth_error (map fst rows)) ND).
              * apply nth_error_Some. rewrite nth_error_map, Ej. discriminate.
              * rewrite !nth_error_map, Ej, Er. reflexivity.
            + exfalso. assert (k < a) by (eapply (sorted_pairs rows RS k a (i, Star1) (j, Star1)); eauto). lia.
          - apply latest_ge; [|exact Dc]. apply (nth_error_In _ k). rewrite nth_firstn_lt by lia. exact Ec. }
        exists c. split; [|exact Dc]. apply CORE. split; [eapply nth_error_In; exact Q|exact N9]. }
  assert (CE : core = [] \/ py_in "case" (flag_text unsure core) = true) by (destruct core; [left; reflexivity|right; apply case_in; discriminate]).
  assert (TI : flag_text unsure core <> "initial_RLOF") by (apply text_not_label; cbn; tauto).
  assert (TN : flag_text unsure core <> "no_RLOF") by (apply text_not_label; cbn; tauto).
  assert (TB := text_both unsure core KN). rewrite andb_true_iff, !py_in_iff in TB.
  assert (HC : has "case" (flag_text unsure core) /\ has "1" (flag_text unsure core) /\ has "2" (flag_text unsure core) <-> both core).
  { rewrite <- TB. split; [tauto|]. intros Q. split; [|exact Q]. apply py_in_iff. destruct CE as [-> |CE]; [|exact CE].
    apply TB in Q as [(c & [] & _) _]. }
  rewrite <- B, <- HC. rewrite !C66_class. split; split.
  - intros Q. inversion Q; subst; tauto.
  - intros (A1 & A2 & A3). apply cl_reverse; assumption.
  - intros Q. inversion Q; subst; tauto.
  - intros Q. apply cl_stable; assumption.
Qed.
End Reverse.
Print Assumptions C66_reverse_run.
Example C66_reverse_case :
  run_flag [ quiet_row; row_1; row_2 ] [ ms_row; ms_row; he_row ] [ ms_row; ms_row; ms_row ] false = Ok "case_A1/A2"
  /\ infer_interpolation_class "max_age" "case_A1/A2" = "stable_reverse_MT"
  /\ infer_interpolation_class "max_age" "case_A1/B1" = "stable_MT"
  /\ infer_interpolation_class "min_timestep_limit" "None" = "not_converged".
Proof. repeat split. Qed.
(** Both stars donate, but star 1 is not classified when it does: not a reverse transfer. *)
Theorem C66_reverse_refuted : exists bh a b tf2, run_flag bh a b false = Ok tf2 /\
  (exists r, In r bh /\ donates Star1 r) /\ (exists r, In r bh /\ donates Star2 r) /\
  infer_interpolation_class "max_age" tf2 = "stable_MT".
Proof.
  exists [ quiet_row; row_1; row_2 ], [ ms_row; odd_row; ms_row ], [ ms_row; ms_row; ms_row ], "?case_A2".
  split; [reflexivity|]. split; [exists row_1; split; [cbn; tauto|split; [left; reflexivity|reflexivity]]|].
  split; [exists row_2; split; [cbn; tauto|split; [right; reflexivity|reflexivity]]|]. reflexivity.
Qed.
Print Assumptions C66_reverse_refuted.
(** Codes that get_flag_from_MESA_output reports and that no class is made for. *)
Theorem C66_every_code_refuted : forall tf2, tf2 <> "initial_RLOF" -> tf2 <> "no_RLOF" ->
  infer_interpolation_class "Reached TPAGB" tf2 = "unknown" /\
  (forall file line, get_flag_from_MESA_output (Some file) = "Reached TPAGB" ->
     get_flag_from_MESA_output (Some (file ++ [ line; "min_timestep_limit: Reached TPAGB" ])) = "Reached TPAGB").
Proof.
  intros tf2 A B. split.
  - apply C66_class, cl_unknown; [|exact A|exact B].
    intros I. assert (E : existsb (String.eqb "Reached TPAGB") (overflow_codes ++ failure_codes ++ stable_codes ++ unstable_codes) = true)
      by (apply (proj2 (in_pool _ _)); exact I). vm_compute in E. discriminate.
  - intros file line _. unfold get_flag_from_MESA_output. rewrite rev_app_distr. reflexivity.
Qed.
Print Assumptions C66_every_code_refuted.

(** ** Combined labels *)
Definition name_of (c : Z) : string :=
  match dget Z.eqb [ (1, "A"); (2, "B"); (3, "C"); (4, "BA"); (5, "BB"); (6, "BC"); (8, "nonburning");
                     (11, "A"); (12, "B"); (13, "C"); (14, "BA"); (15, "BB"); (16, "BC"); (18, "nonburning"); (19, "undetermined MT") ]%Z c
  with Some w => w | None => "" end.
(** As last of several. *)
Definition end_name (c : Z) : string := if (c =? 8)%Z || (c =? 18)%Z then "n" else if (c =? 19)%Z then "undetermined_MT" else name_of c.
Definition nonburning (c : Z) : Prop := c = 8%Z \/ c = 18%Z.
Definition kinds : list (string * string) := [ ("stable_MT", "Stable"); ("unstable_MT", "Unstable") ].
Definition episode (c : Z) : Prop := In c [ 1; 2; 3; 4; 5; 6; 8; 11; 12; 13; 14; 15; 16; 18; 19 ]%Z.

Lemma take_substring : forall s n, take n s = substring 0 n s.
Proof. induction s as [|c s IH]; intros [|n]; cbn; try reflexivity. f_equal. apply IH. Qed.
Lemma take_take : forall n a b, take n (take n a ++ b)%string = take n (a ++ b)%string.
Proof.
  induction n as [|n IH]; intros a b; [reflexivity|]. destruct a as [|c a]; [reflexivity|]. cbn. f_equal. apply IH.
Qed.
Lemma split_plain : forall w, has_char "/" w = false -> split_slash w = [ w ].
Proof.
  induction w as [|c w IH]; intros H; [reflexivity|]. cbn [split_slash has_char] in *. apply orb_false_iff in H as [A B].
  rewrite (Ascii.eqb_sym c "/"), A, (IH B). reflexivity.
Qed.
Lemma split_app : forall w r, has_char "/" w = false -> split_slash (w ++ String "/" r)%string = w :: split_slash r.
Proof.
  induction w as [|c w IH]; intros r H; [reflexivity|]. cbn [append split_slash has_char] in *. apply orb_false_iff in H as [A B].
  rewrite (Ascii.eqb_sym c "/"), A, (IH r B). reflexivity.
Qed.
Lemma split_concat : forall ws w, Forall (fun x => has_char "/" x = false) (w :: ws) -> split_slash (String.concat "/" (w :: ws)) = w :: ws.
Proof.
  induction ws as [|v ws IH]; intros w F; inversion F as [|? ? A B]; subst.
  - cbn. apply split_plain. exact A.
  - change (String.concat "/" (w :: v :: ws)) with (w ++ String "/" (String.concat "/" (v :: ws)))%string.
    rewrite split_app by exact A. f_equal. apply IH. exact B.
Qed.
Lemma concat_cons p w ws : (p ++ String.concat "/" (w :: ws))%string = String.concat "/" ((p ++ w)%string :: ws).
Proof.
  destruct ws as [|v ws]; [reflexivity|]. cbn [String.concat]. induction p as [|c p IH]; [reflexivity|]. cbn [append]. f_equal. exact IH.
Qed.
Lemma episode_words c : episode c -> In c (map fst flag_words).
Proof. unfold episode, flag_words. cbn [In map fst]. tauto. Qed.
Lemma unmask_text unsure core : core <> [] -> unmask (flag_text unsure core) = flag_text false core.
Proof. destruct core as [|c core]; [congruence|]. intros _. destruct unsure; reflexivity. Qed.
Lemma one_donor_not_both core d : Forall (fun c => donor c = d) core -> ~ both core.
Proof.
  intros F [(a & A & A') (b & B & B')]. rewrite Forall_forall in F. apply F in A, B. congruence.
Qed.
Lemma prefix_cons a x y : String.prefix (String a x) (String a y) = String.prefix x y.
Proof. cbn. destruct (ascii_dec a a); [reflexivity|congruence]. Qed.

(** One episode, or the same kind only. *)
Theorem C66_label_one : forall IC kind unsure c, In (IC, kind) kinds -> episode c -> c <> 6%Z -> c <> 16%Z -> c <> 19%Z ->
  combine_one IC (flag_text unsure [c]) = (kind ++ " case " ++ if (c =? 8)%Z || (c =? 18)%Z then "n" else name_of c)%string.
Proof.
  intros IC kind unsure c K E. cbn in K. unfold episode in E. cbn [In] in E.
  destruct K as [K|[K|[]]]; injection K as <- <-; destruct unsure;
    repeat (destruct E as [<-|E]; [intros; try congruence; vm_compute; reflexivity|]); destruct E.
Qed.
(** Contact and the classes without mass transfer. *)
Theorem C66_label_fixed : forall IC kind tf2, In (IC, kind) kinds ->
  combine_one "initial_MT" tf2 = "Initial RLOF" /\ combine_one "not_converged" tf2 = "Not converged" /\
  combine_one "no_MT" tf2 = "no_RLOF" /\ combine_one "stable_reverse_MT" tf2 = "Reverse stable MT" /\
  combine_one IC "contact_during_MS" = (kind ++ " contact")%string /\
  combine_one IC "?" = "unknown" /\ combine_one IC "?contact_during_MS" = "unknown" /\ (forall IC', ~ In IC' [ "initial_MT"; "not_converged"; "no_MT"; "stable_reverse_MT"; "stable_MT"; "unstable_MT" ] ->
    combine_one IC' tf2 = "unknown").
Proof.
  intros IC kind tf2 K. do 4 (split; [reflexivity|]). cbn in K.
  assert (U : forall IC', ~ In IC' [ "initial_MT"; "not_converged"; "no_MT"; "stable_reverse_MT"; "stable_MT"; "unstable_MT" ] ->
    combine_one IC' tf2 = "unknown").
  { intros IC' N. unfold combine_one. cbv zeta.
    repeat match goal with |- context [String.eqb IC' ?w] => destruct (String.eqb_spec IC' w) as [E|_]; [exfalso; apply N; rewrite E; cbn; tauto|] end.
    reflexivity. }
  destruct K as [K|[K|[]]]; injection K as <- <-; do 3 (split; [reflexivity|]); exact U.
Qed.
Lemma combine_open IC kind tf : In (IC, kind) kinds ->
  py_in "1" (unmask tf) && py_in "2" (unmask tf) = false ->
  inpool (unmask tf) TF2_POOL_CONT = false -> inpool (unmask tf) TF2_POOL_A = false -> inpool (unmask tf) TF2_POOL_B = false ->
  inpool (unmask tf) TF2_POOL_C = false -> inpool (unmask tf) TF2_POOL_BA = false -> inpool (unmask tf) TF2_POOL_BB = false ->
  inpool (unmask tf) TF2_POOL_UNSTABLE = false ->
  combine_one IC tf = if py_in "case_nonburning" (unmask tf) then (kind ++ " case n")%string
                      else if py_in "/" (unmask tf) then first_and_last kind (unmask tf) else "unknown".
Proof.
  intros K H1 H2 H3 H4 H5 H6 H7 H8. unfold combine_one. cbv zeta. rewrite H1, H2, H3, H4, H5, H6, H7, H8.
  cbn in K. destruct K as [K|[K|[]]]; injection K as <- <-; reflexivity.
Qed.
(** Both stars donate. *)
Theorem C66_label_reverse : forall IC kind unsure core, In (IC, kind) kinds -> known core -> both core ->
  combine_one IC (flag_text unsure core) = ("Reverse " ++ match kind with "Stable" => "stable" | _ => "unstable" end ++ " MT")%string.
Proof.
  intros IC kind unsure core K KN B. assert (NE : core <> []) by (intros ->; destruct B as [(c & [] & _) _]).
  unfold combine_one. cbv zeta. rewrite (unmask_text unsure core NE), (proj2 (text_both false core KN) B).
  cbn in K. destruct K as [K|[K|[]]]; injection K as <- <-; reflexivity.
Qed.
Lemma with_slash core a b : has_char "/" (flag_text false (a :: b :: core)) = true.
Proof.
  unfold flag_text. change (map word_of (a :: b :: core)) with (word_of a :: map word_of (b :: core)).
  assert (E : String.concat "/" (word_of a :: map word_of (b :: core)) = (word_of a ++ "/" ++ String.concat "/" (map word_of (b :: core)))%string) by reflexivity.
  rewrite E, !has_char_app. change (has_char "/" "/") with true. rewrite orb_true_l, !orb_true_r. reflexivity.
Qed.
Lemma pool_no_slash tf p : has_char "/" tf = true -> forallb (fun x => negb (has_char "/" x)) p = true -> inpool tf p = false.
Proof.
  intros S F. destruct (inpool tf p) eqn:E; [|reflexivity]. apply in_pool in E. rewrite forallb_forall in F. apply F in E. rewrite S in E. discriminate.
Qed.
(** Several episodes of one donor: the first and the last are named, cut to 25 characters. *)
Lemma words_plain core : known core -> Forall (fun x => has_char "/" x = false) (map word_of core).
Proof.
  intros K. induction K as [|c l I K IH]; cbn [map]; constructor; [apply word_digits; exact I|exact IH].
Qed.
Lemma first_text c : episode c -> ~ nonburning c -> but_last (underscores ("case_" ++ word_of c)) = ("case " ++ name_of c)%string.
Proof.
  unfold episode, nonburning. cbn [In]. intros E N. repeat (destruct E as [<-|E]; [try (exfalso; tauto); reflexivity|]). destruct E.
Qed.
Lemma last_text c : episode c -> (if py_in "nonburning" (word_of c) then "n" else but_last (word_of c)) = end_name c.
Proof. unfold episode. cbn [In]. intros E. repeat (destruct E as [<-|E]; [reflexivity|]). destruct E. Qed.

Lemma py_in_none ch x s : has_char ch s = false -> py_in (String ch x) s = false.
Proof.
  induction s as [|c s IH]; intros H; [reflexivity|]. cbn [has_char] in H. apply orb_false_iff in H as [A B]. cbn [py_in].
  rewrite (IH B), orb_false_r. cbn [prefix]. destruct (ascii_dec ch c) as [-> |_]; [rewrite Ascii.eqb_refl in A; discriminate|reflexivity].
Qed.
Lemma word_no_c c : In c (map fst flag_words) -> has_char "c" (word_of c) = false.
Proof.
  intros I. assert (A : forallb (fun c => negb (has_char "c" (word_of c))) (map fst flag_words) = true) by reflexivity.
  rewrite forallb_forall in A. apply negb_true_iff, A, I.
Qed.
Lemma nonburning_in c core : known (c :: core) -> episode c ->
  py_in "case_nonburning" (flag_text false (c :: core)) = (c =? 8)%Z || (c =? 18)%Z.
Proof.
  intros K E. unfold flag_text. set (t := String.concat "/" (map word_of (c :: core))).
  change ("" ++ "case_" ++ t)%string with (String "c" ("ase_" ++ t)).
  cbn [py_in]. rewrite (py_in_none "c").
  2:{ rewrite has_char_app. unfold t. rewrite has_char_concat by reflexivity. cbn [has_char orb Ascii.eqb Bool.eqb].
      apply Bool.not_true_is_false. intros H. apply existsb_exists in H as (w & I & H). apply in_map_iff in I as (x & <- & I).
      unfold known in K. rewrite Forall_forall in K. rewrite (word_no_c x (K x I)) in H. discriminate. }
  rewrite orb_false_r. change (String "c" ("ase_" ++ t)) with ("case_" ++ t)%string.
  change (prefix "case_nonburning" ("case_" ++ t)) with (prefix "nonburning" t). unfold t. cbn [map String.concat].
  unfold episode in E. cbn [In] in E.
  repeat (destruct E as [<-|E]; [destruct (map word_of core) as [|w ws]; reflexivity|]). destruct E.
Qed.
Lemma hd_last (core : list Z) c e : last (c :: core ++ [e]) 0%Z = e.
Proof. change (c :: core ++ [e]) with ((c :: core) ++ [e]). apply last_last. Qed.

Theorem C66_label_many : forall IC kind unsure d c mid e, In (IC, kind) kinds -> Forall episode (c :: mid ++ [e]) ->
  Forall (fun x => donor x = d) (c :: mid ++ [e]) ->
  combine_one IC (flag_text unsure (c :: mid ++ [e])) =
    if (c =? 8)%Z || (c =? 18)%Z then (kind ++ " case n")%string
    else substring 0 25 (kind ++ " case " ++ name_of c ++ end_name e)%string.
Proof.
  intros IC kind unsure d c mid e K EP DN. set (core := c :: mid ++ [e]).
  assert (KN : known core) by (eapply Forall_impl; [|exact EP]; apply episode_words).
  assert (EC : episode c) by (inversion EP; assumption).
  assert (EE : episode e) by (rewrite Forall_forall in EP; apply EP; right; apply in_or_app; right; left; reflexivity).
  assert (SL : has_char "/" (flag_text false core) = true).
  { unfold core in *. destruct mid as [|m mid]; cbn [app] in *; apply with_slash. }
  rewrite (combine_open IC kind).
  - rewrite unmask_text by discriminate. unfold core at 1. rewrite nonburning_in; [|exact KN|exact EC].
    destruct ((c =? 8)%Z || (c =? 18)%Z) eqn:NB; [reflexivity|]. rewrite py_in_char, SL. unfold first_and_last. cbv zeta.
    assert (SP : split_slash (flag_text false core) = ("case_" ++ word_of c)%string :: map word_of (mid ++ [e])).
    { unfold flag_text, core. cbn [map]. change ("" ++ "case_" ++ String.concat "/" (word_of c :: map word_of (mid ++ [e])))%string
        with ("case_" ++ String.concat "/" (word_of c :: map word_of (mid ++ [e])))%string. rewrite concat_cons. apply split_concat.
      pose proof (words_plain core KN) as W. unfold core in W. cbn [map] in W. inversion W as [|? ? W0 W1]; subst. constructor; [|exact W1].
      rewrite has_char_app, W0. reflexivity. }
    rewrite SP. cbn [hd]. rewrite map_app. cbn [map].
    assert (LW : last (("case_" ++ word_of c)%string :: map word_of mid ++ [word_of e]) "" = word_of e).
    { change (("case_" ++ word_of c)%string :: map word_of mid ++ [word_of e]) with ((("case_" ++ word_of c)%string :: map word_of mid) ++ [word_of e]).
      apply last_last. }
    rewrite LW, first_text; [|exact EC|intros [-> | ->]; discriminate].
    rewrite <- take_substring. unfold u25.
    assert (J : forall x, (if py_in "nonburning" (word_of e) then x ++ "n" else x ++ but_last (word_of e))%string = (x ++ end_name e)%string).
    { intros x. rewrite <- (last_text e EE). destruct (py_in "nonburning" (word_of e)); reflexivity. }
    rewrite J, take_take. cbn in K. destruct K as [K|[K|[]]]; injection K as <- <-; reflexivity.
  - exact K.
  - rewrite unmask_text by discriminate. apply Bool.not_true_is_false. rewrite text_both by exact KN. apply (one_donor_not_both core d DN).
  - rewrite unmask_text by discriminate. apply pool_no_slash; [exact SL|reflexivity].
  - rewrite unmask_text by discriminate. apply pool_no_slash; [exact SL|reflexivity].
  - rewrite unmask_text by discriminate. apply pool_no_slash; [exact SL|reflexivity].
  - rewrite unmask_text by discriminate. apply pool_no_slash; [exact SL|reflexivity].
  - rewrite unmask_text by discriminate. apply pool_no_slash; [exact SL|reflexivity].
  - rewrite unmask_text by discriminate. apply pool_no_slash; [exact SL|reflexivity].
  - rewrite unmask_text by discriminate. apply pool_no_slash; [exact SL|reflexivity].
Qed.
Print Assumptions C66_label_one.
Print Assumptions C66_label_fixed.
Print Assumptions C66_label_reverse.
Print Assumptions C66_label_many.
Example C66_labels :
  combine_TF12 [ "stable_MT"; "unstable_MT"; "stable_MT"; "unstable_MT"; "initial_MT" ]
               [ "?case_A1/B1"; "case_A1/B1/BB1"; "case_nonburning1/A2"; "case_B2/nonburning2"; "case_A1" ]
  = [ "Stable case AB"; "Unstable case ABB"; "Reverse stable MT"; "Unstable case Bn"; "Initial RLOF" ].
Proof. reflexivity. Qed.
(** Names are cut, a lone undetermined or BC episode has no name, and names do not tell all runs apart. *)
Theorem C66_label_faithful_refuted :
  combine_one "unstable_MT" (flag_text false [11; 19]%Z) = "Unstable case Aundetermin" /\
  combine_one "stable_MT" (flag_text false [19]%Z) = "unknown" /\ combine_one "stable_MT" (flag_text false [6]%Z) = "unknown" /\
  combine_one "stable_MT" (flag_text false [1; 2; 5]%Z) = combine_one "stable_MT" (flag_text false [1; 5]%Z) /\
  combine_one "stable_MT" (flag_text false [2; 1]%Z) = combine_one "stable_MT" (flag_text true [4]%Z) /\
  combine_one "stable_MT" (flag_text true [1]%Z) = combine_one "stable_MT" (flag_text false [11]%Z).
Proof. repeat split; reflexivity. Qed.
Print Assumptions C66_label_faithful_refuted.
(** The list form labels every run on its own. *)
Theorem C66_lists : forall IC TF2 i, length IC = length TF2 ->
  nth_error (combine_TF12 IC TF2) i = match nth_error IC i, nth_error TF2 i with Some a, Some b => Some (combine_one a b) | _, _ => None end.
Proof.
  unfold combine_TF12. induction IC as [|a IC IH]; intros [|b TF2] [|i] L; try discriminate; try reflexivity. cbn. apply IH. cbn in L. lia.
Qed.
Print Assumptions C66_lists.
