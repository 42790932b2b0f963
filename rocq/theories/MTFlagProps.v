(** C65: the mass-transfer flag of a run. *)
From Coq Require Import String Ascii List Bool ZArith QArith Sorted Lia.
From Verif Require Import PyBase PyNum PyStr PyList MaskList MTModel MTSpec MTProofs MTProps TFlagModel.
Import ListNotations.
Open Scope string_scope.
Open Scope nat_scope.
Open Scope list_scope.

(** ** Specification *)
Inductive star := Star1 | Star2.
Definition overflow (d : star) (r : brow) : num := match d with Star1 => rel1 r | Star2 => rel2 r end.
(** The donor of a row: some overflow or a rate above the limits, and the larger overflow (star 1 if equal). *)
Definition donates (d : star) (r : brow) : Prop :=
  (nlt (Fin 0) (overflow d r) = true \/ nlt (Fin (-10 # 1)) (rate r) = true) /\
  match d with Star1 => nle (rel2 r) (rel1 r) = true | Star2 => nlt (rel1 r) (rel2 r) = true end.
Definition contact (r : brow) : Prop := nlt (Fin 0) (rel1 r) = true /\ nlt (Fin 0) (rel2 r) = true.
(** The flag is not decided by the termination flag alone. *)
Definition undecided (f : option string) : Prop :=
  forall s, f = Some s -> ~ In s [ "logQ_min_limit"; "min_timestep_limit"; "reach cluster timelimit";
                                   "forced_initial_RLO"; "Terminate because of overflowing initial model" ].
(** The case code of a donor in a state: that of the state's word, 9 if there is none; ten more for star 2. *)
Definition base_code (s : string) (c : Z) : Prop :=
  (exists w, In (c, w) case_names /\ state_word s w) \/ (c = 9%Z /\ ~ classified s).
Definition case_code (d : star) (s : string) (c : Z) : Prop :=
  match d with Star1 => base_code s c | Star2 => base_code s (c - 10) end.
Definition word_of (c : Z) : string := match dget Z.eqb flag_words c with Some w => w | None => "" end.
(** The text for a summary. *)
Definition flag_text (unsure : bool) (core : list Z) : string :=
  ((if unsure then "?" else "") ++ match core with [] => "" | _ => "case_" ++ String.concat "/" (map word_of core) end)%string.

Section Runs.
Variables (fsub : num -> num -> num) (round10 : num -> num) (rel : num).
Variables (bh : list brow) (h1 h2 : option history).
Definition history_of (d : star) : option history := match d with Star1 => h1 | Star2 => h2 end.
Definition masses (d : star) : list num := match d with Star1 => map m1 bh | Star2 => map m2 bh end.
Definition state_at (d : star) (i : nat) (s : string) : Prop :=
  check_state_from_history fsub round10 rel (history_of d) (masses d) (Z.of_nat i) = Ok s.
(** Rows with mass transfer, in order, with their donor. *)
Definition transfer_rows (l : list (nat * star)) : Prop :=
  StronglySorted lt (map fst l) /\ forall i d, In (i, d) l <-> exists r, nth_error bh i = Some r /\ donates d r.
Definition states_known : Prop := forall i r d, nth_error bh i = Some r -> donates d r -> exists s, state_at d i s.

(** ** Lemmas *)
Lemma rlof1_spec r : rlof1 r = true <-> donates Star1 r.
Proof. unfold rlof1, donates, ngt, nge. rewrite andb_true_iff, orb_true_iff. reflexivity. Qed.
Lemma rlof2_spec r : rlof2 r = true <-> donates Star2 r.
Proof. unfold rlof2, donates, ngt. rewrite andb_true_iff, orb_true_iff. reflexivity. Qed.
Lemma nlt_nle a b : nlt a b = true -> nle b a = true -> False.
Proof.
  destruct a as [| | |x], b as [| | |y]; cbn; try discriminate. intros A B. rewrite B in A. discriminate.
Qed.
Lemma one_donor r : rlof1 r = true -> rlof2 r = true -> False.
Proof. rewrite rlof1_spec, rlof2_spec. intros [_ A] [_ B]. eapply nlt_nle; eauto. Qed.

Lemma indices_cons b mask : indices (b :: mask) = (if b then [0] else []) ++ map S (indices mask).
Proof.
  unfold indices. cbn [length seq filter nth]. rewrite filter_shift. destruct b; reflexivity.
Qed.
Fixpoint zm (f : nat -> Z) (mask : list bool) (mt : list (option Z)) : list (option Z) :=
  match mask, mt with b :: mask', x :: mt' => (if b then Some (f O) else x) :: zm (fun i => f (S i)) mask' mt' | _, _ => mt end.
Lemma put_where_zm : forall mask mt f, length mt = length mask -> put_where mask (map f (indices mask)) mt = zm f mask mt.
Proof.
  induction mask as [|b mask IH]; intros [|x mt] f L; try discriminate; [reflexivity|]. rewrite indices_cons, map_app, map_map.
  cbn in L. destruct b; cbn [map app put_where zm]; f_equal; apply IH; lia.
Qed.
Lemma zm_length : forall mask mt f, length (zm f mask mt) = length mt.
Proof. induction mask as [|b mask IH]; intros [|x mt] f; cbn; auto. Qed.
Lemma indices_nil : forall mask mt f, indices mask = [] -> zm f mask mt = mt.
Proof.
  induction mask as [|b mask IH]; intros [|x mt] f E; cbn [zm]; try reflexivity. rewrite indices_cons in E.
  destruct b; [discriminate|]. cbn in E. apply map_eq_nil in E. rewrite IH by exact E. reflexivity.
Qed.
Definition donor_no (r : brow) : option star := if rlof2 r then Some Star2 else if rlof1 r then Some Star1 else None.
(** The rows with their donors, from position [k] on. *)
Fixpoint rows_from (k : nat) (l : list brow) : list (nat * star) :=
  match l with
  | [] => []
  | r :: l' => match donor_no r with Some d => (k, d) :: rows_from (S k) l' | None => rows_from (S k) l' end
  end.
Lemma rows_shift : forall l k, rows_from (S k) l = map (fun p => (S (fst p), snd p)) (rows_from k l).
Proof. induction l as [|r l IH]; intros k; cbn; [reflexivity|]. destruct (donor_no r); cbn; rewrite IH; reflexivity. Qed.
Lemma present_zm : forall l f1 f2,
  present (zm (fun i => f2 i + 10)%Z (map rlof2 l) (zm (fun i => f1 i + 0)%Z (map rlof1 l) (map (fun _ => None) l)))
  = map (fun p => match snd p with Star1 => f1 (fst p) | Star2 => f2 (fst p) + 10 end)%Z (rows_from 0 l).
Proof.
  induction l as [|r l IH]; intros f1 f2; [reflexivity|]. cbn [map zm present flat_map rows_from]. fold (present).
  specialize (IH (fun i => f1 (S i)) (fun i => f2 (S i))). unfold present in IH. rewrite IH. unfold donor_no.
  rewrite rows_shift. destruct (rlof2 r) eqn:R2.
  - cbn [map app]. rewrite map_map. reflexivity.
  - destruct (rlof1 r) eqn:R1; cbn [map app]; rewrite ?map_map; [rewrite Z.add_0_r|]; reflexivity.
Qed.
Lemma rows_spec : forall l k,
  StronglySorted lt (map fst (rows_from k l)) /\ Forall (fun i => k <= i) (map fst (rows_from k l)) /\
  forall i d, In (i, d) (rows_from k l) <-> exists j r, i = k + j /\ nth_error l j = Some r /\ donates d r.
Proof.
  induction l as [|r l IH]; intros k.
  - cbn. split; [constructor|]. split; [constructor|]. intros i d. split; [intros []|]. intros (j & r & _ & E & _). destruct j; discriminate.
  - destruct (IH (S k)) as (A & B & C). cbn [rows_from].
    assert (SP : forall d, donor_no r = Some d <-> donates d r).
    { intros d. unfold donor_no. destruct (rlof2 r) eqn:R2.
      - apply rlof2_spec in R2 as D2. destruct d; split; try (intros; assumption || reflexivity); [discriminate|].
        intros D1. exfalso. apply rlof1_spec in D1. eapply one_donor; eauto.
      - destruct (rlof1 r) eqn:R1.
        + apply rlof1_spec in R1 as D1. destruct d; split; try (intros; assumption || reflexivity); [discriminate|].
          intros D2. apply rlof2_spec in D2. congruence.
        + split; [discriminate|]. intros D. exfalso. destruct d; [apply rlof1_spec in D|apply rlof2_spec in D]; congruence. }
    assert (LINK : forall i d, (exists j r', i = S k + j /\ nth_error l j = Some r' /\ donates d r') \/ (i = k /\ donates d r)
      <-> exists j r', i = k + j /\ nth_error (r :: l) j = Some r' /\ donates d r').
    { intros i d. split.
      - intros [(j & r' & -> & E & D)|[-> D]]; [exists (S j), r'; split; [lia|auto]|exists 0, r; split; [lia|auto]].
      - intros ([|j] & r' & -> & E & D); [right|left].
        + injection E as <-. split; [lia|exact D].
        + exists j, r'. split; [lia|auto]. }
    assert (B' : Forall (fun i => k <= i) (map fst (rows_from (S k) l))) by (eapply Forall_impl; [|exact B]; intros; cbn in *; lia).
    destruct (donor_no r) as [d0|] eqn:E; cbn [map].
    + split; [constructor; [exact A|]; eapply Forall_impl; [|exact B]; intros; cbn in *; lia|]. split; [constructor; [apply le_n|exact B']|].
      intros i d. rewrite <- LINK. cbn [In]. rewrite C. assert (Q : (k, d0) = (i, d) <-> i = k /\ donates d r).
      { rewrite <- SP. split; [intros H; injection H as <- <-; auto|]. intros [-> H]. congruence. }
      rewrite Q. tauto.
    + split; [exact A|]. split; [exact B'|]. intros i d. rewrite <- LINK, C. assert (~ donates d r) by (rewrite <- SP; congruence). tauto.
Qed.

Lemma idx_nat A (l : list A) i : idx l (Z.of_nat i) = match nth_error l i with Some x => Ok x | None => Raise IndexError end.
Proof.
  unfold idx, py_nth. rewrite (proj2 (Z.ltb_ge (Z.of_nat i) 0)) by lia. rewrite (proj2 (Z.ltb_ge (Z.of_nat i) 0)) by lia.
  rewrite Nat2Z.id. reflexivity.
Qed.

(** The case of one row. *)
Lemma donor_not_quiet d r : donates d r -> ~ quiet (Some (overflow d r)) (Some (rate r)) true.
Proof.
  intros [H _] [Q|[Q|(o & m & Q1 & Q2 & A & B)]]; try discriminate. injection Q1 as <-. injection Q2 as <-.
  destruct B as [B|]; [|discriminate].
  assert (AM : forall x t, at_most x t -> nlt (Fin t) x = false).
  { intros x t [->|(q & -> & L)]; [reflexivity|]. apply nlt_fin_false. exact L. }
  apply AM in A, B. destruct H; congruence.
Qed.
Lemma case_of_row d r s : donates d r -> exists c, infer_mass_transfer_case (Some (overflow d r)) (Some (rate r)) (Some s) true = Ok c /\ base_code s c.
Proof.
  intros D. pose proof (donor_not_quiet d r D) as NQ.
  destruct (infer_mass_transfer_case (Some (overflow d r)) (Some (rate r)) (Some s) true) as [c|e] eqn:E.
  - exists c. split; [reflexivity|]. pose proof (mt_case_range _ _ _ _ _ E) as R.
    assert (N0 : c <> 0%Z) by (intros ->; apply mt_case_no_rlo in E; contradiction).
    destruct (Z.eq_dec c 9) as [->|N9].
    + right. split; [reflexivity|]. apply mt_case_undetermined in E. apply E.
    + left. assert (W : exists w, In (c, w) case_names /\ inb Z.eqb c ALL_RLO_CASES = true).
      { unfold case_names. cbn [In] in R.
        destruct R as [<-|[<-|[<-|[<-|[<-|[<-|[<-|[<-|[]]]]]]]]]; try congruence; eexists; split; try reflexivity; cbn; tauto. }
      destruct W as (w & W1 & W2). destruct (mt_case_word _ _ _ _ _ _ E W2 W1) as (s' & S1 & S2). injection S1 as <-. eauto.
  - exfalso. apply mt_case_raises in E as (_ & E & _). discriminate.
Qed.

(** ** Summaries of codes without "no RLO" *)
Definition code_ok (c : Z) : Prop := In c [1; 2; 3; 4; 5; 6; 8; 9; 11; 12; 13; 14; 15; 16; 18; 19]%Z.
Lemma base_code_in s c : base_code s c -> In c [1; 2; 3; 4; 5; 6; 8; 9]%Z.
Proof using Type. clear fsub round10 rel.
  intros [(w & I & _)|[-> _]]; [|cbn; tauto]. unfold case_names in I. cbn in I.
  repeat (destruct I as [I|I]; [injection I as <- _; cbn; tauto|]). destruct I.
Qed.
Lemma case_code_ok d s c : case_code d s c -> code_ok c.
Proof using Type. clear fsub round10 rel.
  destruct d; cbn; intros H; apply base_code_in in H; unfold code_ok; cbn [In] in *; [tauto|]. lia.
Qed.
Lemma latest_in d l : latest_case d l = base_case d \/ In (latest_case d l) l.
Proof.
  unfold latest_case. assert (G : forall l', fold_right Z.max (base_case d) l' = base_case d \/ In (fold_right Z.max (base_case d) l') l').
  { induction l' as [|x l' IH]; cbn [fold_right]; [left; reflexivity|].
    destruct (Z.max_spec x (fold_right Z.max (base_case d) l')) as [[_ ->]|[_ ->]]; [|right; left; reflexivity].
    destruct IH as [IH|IH]; [left; exact IH|right; right; exact IH]. }
  destruct (G (filter (fun c => donor c =? d) l)) as [E|E]; [left; exact E|]. right. apply filter_In in E. apply E.
Qed.
Lemma code_ok_donor c : code_ok c -> (donor c = 1 /\ (0 < c)%Z) \/ (donor c = 2 /\ (10 < c)%Z).
Proof. unfold code_ok. cbn [In]. intros H. repeat (destruct H as [<-|H]; [cbn; lia|]). destruct H. Qed.
Lemma in_firstn A (x : A) n l : In x (firstn n l) -> In x l.
Proof. intros H. rewrite <- (firstn_skipn n l). apply in_or_app. left. exact H. Qed.
Lemma shifted_ok l sh : shifted l sh -> Forall code_ok l -> Forall code_ok sh.
Proof.
  intros [L H] F. apply Forall_forall. intros x I. apply In_nth_error in I as [i E].
  assert (B : i < length l) by (rewrite <- L; apply nth_error_Some; congruence).
  destruct (nth_error l i) as [c|] eqn:Ec; [|apply nth_error_None in Ec; lia].
  rewrite (H i c Ec) in E. rewrite Forall_forall in F. assert (Oc : code_ok c) by (apply F; eapply nth_error_In; eauto).
  assert (Ic : In c (firstn (S i) l)).
  { apply (nth_error_In _ i). rewrite nth_firstn_lt by lia. exact Ec. }
  assert (N3 : (donor c =? 3) = false) by (apply Nat.eqb_neq; destruct (code_ok_donor c Oc) as [[-> _]|[-> _]]; lia).
  rewrite N3 in E. injection E as <-.
  destruct (latest_in (donor c) (firstn (S i) l)) as [Q|Q].
  - exfalso. pose proof (latest_ge (donor c) _ c Ic eq_refl) as G. rewrite Q in G.
    destruct (code_ok_donor c Oc) as [[D K]|[D K]]; rewrite D in G; cbn in G; lia.
  - apply F. eapply in_firstn; exact Q.
Qed.
Lemma stutters_incl A (s l : list A) : stutters s l -> forall x, In x s -> In x l.
Proof.
  induction 1 as [|x n s l H IH]; intros y I; [exact I|]. destruct I as [-> |I]; apply in_or_app; [left; left; reflexivity|right; auto].
Qed.
(** The text of a summary of such codes. *)
Lemma summary_text sh out : sh <> [] -> Forall code_ok sh -> is_summary 9%Z 0%Z sh out ->
  exists unsure core, out = (if unsure : bool then [9%Z] else []) ++ core /\ (unsure = true <-> In 9%Z sh) /\
    fst (cumulative_mass_transfer_string out) = flag_text unsure core.
Proof using Type. clear fsub round10 rel.
  intros NE F (front & core & kept & -> & Y & N & (keep & K & EK) & Z0 & ST).
  assert (C : Forall (fun c => In c (map fst flag_words)) core).
  { apply Forall_forall. intros c I. destruct kept as [|k0 kept'] eqn:KE.
    - destruct (Z0 eq_refl) as [A B]. exfalso. assert (~ In 0%Z sh).
      { intros H0. rewrite Forall_forall in F. apply F in H0. unfold code_ok in H0. cbn in H0. lia. }
      rewrite (B H) in I. destruct I.
    - destruct ST as [ST _]; [discriminate|]. apply (stutters_incl _ _ _ ST) in I. rewrite EK in I.
      apply filter_In in I as [I1 I2]. rewrite Forall_forall in F. specialize (F c I1).
      assert (c <> 9%Z) by (intros ->; rewrite (proj2 (K 9%Z)) in I2 by tauto; discriminate).
      unfold code_ok in F. unfold flag_words. cbn [In map fst] in *. lia. }
  destruct (in_dec Z.eq_dec 9%Z sh) as [I|I].
  - rewrite (Y I). exists true, core. split; [reflexivity|]. split; [tauto|]. destruct core as [|c core]; [reflexivity|].
    refine (f_equal fst (mt_text_of_cases true (c :: core) _ C)). discriminate.
  - rewrite (N I). exists false, core. split; [reflexivity|]. split; [split; [discriminate|tauto]|].
    destruct core as [|c core].
    + exfalso. destruct kept as [|k0 kept'] eqn:KE; [|destruct ST as [ST _]; [discriminate|]; inversion ST].
      destruct sh as [|x sh]; [congruence|]. cbn [filter] in EK. destruct (keep x) eqn:KX; [discriminate|].
      apply K in KX as [-> | ->]; [apply I; left; reflexivity|]. inversion F as [|? ? F0]. unfold code_ok in F0. cbn in F0. lia.
    + refine (f_equal fst (mt_text_of_cases false (c :: core) _ C)). discriminate.
Qed.

(** ** The blocks for the two stars *)
Definition row_case (d : star) (i : nat) : result Z :=
  rbind (check_state_from_history fsub round10 rel (history_of d) (masses d) (Z.of_nat i)) (fun state =>
  rbind (idx bh (Z.of_nat i)) (fun r =>
  infer_mass_transfer_case (Some (overflow d r)) (Some (rate r)) (Some state) true)).
Definition code_at (d : star) (i : nat) : Z := match row_case d i with Ok c => c | Raise _ => 0%Z end.
Definition fills (d : star) (r : brow) : bool := match d with Star1 => rlof1 r | Star2 => rlof2 r end.
Lemma fills_spec d r : fills d r = true <-> donates d r.
Proof. destruct d; [apply rlof1_spec|apply rlof2_spec]. Qed.
Lemma indices_in d i : In i (indices (map (fills d) bh)) <-> exists r, nth_error bh i = Some r /\ donates d r.
Proof.
  unfold indices. rewrite filter_In, in_seq, map_length. split.
  - intros [[_ L] E]. destruct (nth_error bh i) as [r|] eqn:N; [|apply nth_error_None in N; cbn in L; lia].
    exists r. split; [reflexivity|]. apply fills_spec. rewrite <- E. symmetry. apply nth_error_nth.
    rewrite nth_error_map, N. reflexivity.
  - intros (r & N & D). split; [split; [lia|]; apply nth_error_Some; congruence|]. apply fills_spec in D. rewrite <- D.
    apply nth_error_nth. rewrite nth_error_map, N. reflexivity.
Qed.
Lemma row_case_ok d i r s : nth_error bh i = Some r -> donates d r -> state_at d i s ->
  row_case d i = Ok (code_at d i) /\ base_code s (code_at d i).
Proof.
  intros N D E. assert (Q : exists c, row_case d i = Ok c /\ base_code s c).
  { unfold row_case. rewrite E, idx_nat, N. cbn [rbind]. apply case_of_row. exact D. }
  destruct Q as (c & Q & B). unfold code_at. rewrite Q. auto.
Qed.
Lemma indices_head d i l : indices (map (fills d) bh) = i :: l -> i = 0 <-> exists r, nth_error bh 0 = Some r /\ donates d r.
Proof.
  intros E. rewrite <- indices_in. split; [intros ->; rewrite E; left; reflexivity|]. intros I.
  destruct bh as [|r rest]; [destruct I|]. cbn [map] in *. rewrite indices_cons in *.
  destruct (fills d r); cbn in E; [congruence|]. cbn in I. apply in_map_iff in I as (x & X & _). discriminate.
Qed.
Lemma block d shift start mt : length mt = length bh ->
  (forall i r, nth_error bh i = Some r -> donates d r -> exists s, state_at d i s) ->
  star_cases fsub round10 rel shift (history_of d) (masses d) (overflow d) (map (fills d) bh) bh start mt
  = if negb start && match bh with r :: _ => fills d r | [] => false end then Ok None
    else Ok (Some (zm (fun i => code_at d i + shift)%Z (map (fills d) bh) mt)).
Proof.
  intros L K. unfold star_cases. destruct (indices (map (fills d) bh)) as [|i l] eqn:E.
  - assert (F : match bh with r :: _ => fills d r | [] => false end = false).
    { destruct bh as [|r rest] eqn:EB; [reflexivity|]. destruct (fills d r) eqn:FR; [|reflexivity].
      cbn [map] in E. rewrite indices_cons, FR in E. discriminate. }
    rewrite F, andb_false_r, indices_nil by exact E. reflexivity.
  - assert (Q : (i =? 0) = match bh with r :: _ => fills d r | [] => false end).
    { apply eq_true_iff_eq. rewrite Nat.eqb_eq, (indices_head d i l E). destruct bh as [|r rest]; cbn [nth_error].
      - split; [intros (r & ? & _); discriminate|discriminate].
      - rewrite fills_spec. split; [intros (r' & R & D); injection R as <-; exact D|intros D; exists r; auto]. }
    rewrite Q. destruct (negb start && match bh with [] => false | r :: _ => fills d r end); [reflexivity|].
    change (cases fsub round10 rel (history_of d) (masses d) (overflow d) bh (i :: l)) with (collect (map (row_case d) (i :: l))).
    rewrite (collect_map_ok _ _ (row_case d) (code_at d)).
    + cbn [rbind]. do 2 f_equal. rewrite <- E, map_map. apply put_where_zm. rewrite map_length. exact L.
    + intros x I. rewrite <- E in I. apply indices_in in I as (r & N & D). destruct (K x r N D) as (s & S). eapply row_case_ok; eauto.
Qed.

Lemma undecided_pools f : undecided f ->
  match f with Some s => inpool s TF1_POOL_ERROR | None => false end = false /\
  match f with Some s => inpool s TF1_POOL_INITIAL_RLO | None => false end = false.
Proof.
  intros U. destruct f as [s|]; [|auto]. specialize (U s eq_refl).
  split; destruct (inpool _ _) eqn:E; try reflexivity; exfalso; apply U; unfold inpool in E; apply existsb_exists in E as (x & I & X);
    apply String.eqb_eq in X as <-; cbn in *; tauto.
Qed.
Lemma contact_spec : existsb both_overflow bh = true <-> exists r, In r bh /\ contact r.
Proof.
  rewrite existsb_exists. split; intros (r & I & C); exists r; split; auto; unfold both_overflow, contact, ngt in *;
    apply andb_true_iff; exact C.
Qed.
Lemma some_donor d : existsb (fills d) bh = true <-> exists i r, nth_error bh i = Some r /\ donates d r.
Proof.
  rewrite existsb_exists. split.
  - intros (r & I & F). apply fills_spec in F. apply In_nth_error in I as [i I]. eauto.
  - intros (i & r & N & D). exists r. split; [eapply nth_error_In; eauto|]. apply fills_spec. exact D.
Qed.

(** ** C65 *)
Theorem C65_failed start f : In f [ "logQ_min_limit"; "min_timestep_limit"; "reach cluster timelimit" ] ->
  get_mass_transfer_flag fsub round10 rel bh h1 h2 start (Some f) = Ok "None".
Proof. intros [<-|[<-|[<-|[]]]]; reflexivity. Qed.
Theorem C65_initial start f : In f [ "forced_initial_RLO"; "Terminate because of overflowing initial model" ] ->
  get_mass_transfer_flag fsub round10 rel bh h1 h2 start (Some f) = Ok "initial_RLOF".
Proof. intros [<-|[<-|[]]]; reflexivity. Qed.
Theorem C65_contact start f : undecided f -> (exists r, In r bh /\ contact r) ->
  get_mass_transfer_flag fsub round10 rel bh h1 h2 start f = Ok "contact_during_MS".
Proof.
  intros U C. destruct (undecided_pools f U) as [A B]. unfold get_mass_transfer_flag. cbv zeta. rewrite A, B.
  apply contact_spec in C. rewrite C. reflexivity.
Qed.
Theorem C65_none start f : undecided f -> (forall i r d, nth_error bh i = Some r -> ~ donates d r) ->
  get_mass_transfer_flag fsub round10 rel bh h1 h2 start f = Ok "no_RLOF".
Proof.
  intros U N. destruct (undecided_pools f U) as [A B]. unfold get_mass_transfer_flag. cbv zeta. rewrite A, B.
  assert (F : forall d, existsb (fills d) bh = false).
  { intros d. destruct (existsb (fills d) bh) eqn:E; [|reflexivity]. apply some_donor in E as (i & r & E & D). exfalso. eapply N; eauto. }
  pose proof (F Star1) as F1. pose proof (F Star2) as F2. change (existsb rlof1 bh = false) in F1. change (existsb rlof2 bh = false) in F2. rewrite F1, F2.
  destruct (existsb both_overflow bh) eqn:C; [|reflexivity]. exfalso. apply contact_spec in C as (r & I & C1 & C2).
  apply In_nth_error in I as [i I]. destruct (nle (rel2 r) (rel1 r)) eqn:L.
  - apply (N i r Star1 I). split; [left; exact C1|exact L].
  - apply (N i r Star2 I). split; [left; exact C2|]. destruct (rel1 r) as [| | |x], (rel2 r) as [| | |y]; try discriminate; try reflexivity.
    apply nle_fin_false in L. apply nlt_fin. exact L.
Qed.
(** Overflow in the first row of a run not meant to start with it. *)
Theorem C65_at_start f r : undecided f -> (forall r, In r bh -> ~ contact r) -> nth_error bh 0 = Some r ->
  donates Star1 r \/ donates Star2 r /\ (forall i r, nth_error bh i = Some r -> donates Star1 r -> exists s, state_at Star1 i s) ->
  get_mass_transfer_flag fsub round10 rel bh h1 h2 false f = Ok "initial_RLOF".
Proof.
  intros U C N D. destruct (undecided_pools f U) as [A B]. unfold get_mass_transfer_flag. cbv zeta. rewrite A, B.
  destruct (existsb both_overflow bh) eqn:CE; [apply contact_spec in CE as (r' & I & Q); exfalso; eapply C; eauto|].
  assert (HD : exists d, donates d r) by (destruct D as [D|[D _]]; eauto). destruct HD as [d HD].
  assert (SD : negb (existsb rlof1 bh) && negb (existsb rlof2 bh) = false).
  { assert (E : existsb (fills d) bh = true) by (apply some_donor; eauto). destruct d; [change (existsb rlof1 bh = true) in E|change (existsb rlof2 bh = true) in E]; rewrite E; [|rewrite andb_false_r]; reflexivity. }
  rewrite SD. assert (FH : forall d, match bh with r :: _ => fills d r | [] => false end = fills d r).
  { intros d'. destruct bh; cbn in N; congruence. }
  destruct D as [D|[D K]].
  - apply rlof1_spec in D. unfold star_cases. destruct bh as [|r0 rest]; [discriminate|]. injection N as ->. cbn [map].
    rewrite indices_cons, D. reflexivity.
  - pose proof (block Star1 0 false (map (fun _ => None) bh) (map_length _ _) K) as BK.
    change (map (fills Star1) bh) with (map rlof1 bh) in BK. change (history_of Star1) with h1 in BK. change (masses Star1) with (map m1 bh) in BK.
    change (overflow Star1) with rel1 in BK. rewrite BK, FH. destruct (negb false && fills Star1 r); [reflexivity|]. cbn [rbind].
    apply rlof2_spec in D. unfold star_cases. destruct bh as [|r0 rest]; [discriminate|]. injection N as ->. cbn [map].
    rewrite indices_cons, D. reflexivity.
Qed.
(** All other runs: a summary of the cases of the rows with mass transfer. *)
Theorem C65_summary start f : undecided f -> (forall r, In r bh -> ~ contact r) ->
  (exists i r d, nth_error bh i = Some r /\ donates d r) ->
  (start = true \/ forall r d, nth_error bh 0 = Some r -> ~ donates d r) -> states_known ->
  exists rows codes sh unsure core, transfer_rows rows /\
    Forall2 (fun p c => exists s, state_at (snd p) (fst p) s /\ case_code (snd p) s c) rows codes /\
    shifted codes sh /\ is_summary 9%Z 0%Z sh ((if unsure : bool then [9%Z] else []) ++ core) /\ (unsure = true <-> In 9%Z sh) /\
    get_mass_transfer_flag fsub round10 rel bh h1 h2 start f = Ok (flag_text unsure core).
Proof.
  intros U C (i0 & r0 & d0 & N0 & D0) ST K. destruct (undecided_pools f U) as [A B].
  set (codes := map (fun p => match snd p with Star1 => code_at Star1 (fst p) | Star2 => code_at Star2 (fst p) + 10 end)%Z (rows_from 0 bh)).
  destruct (rows_spec bh 0) as (RS & _ & RI).
  assert (TR : transfer_rows (rows_from 0 bh)).
  { split; [exact RS|]. intros i d. rewrite RI. split; [intros (j & r & -> & X); exists r; exact X|intros (r & X); exists i, r; auto]. }
  assert (F2 : Forall2 (fun p c => exists s, state_at (snd p) (fst p) s /\ case_code (snd p) s c) (rows_from 0 bh) codes).
  { unfold codes. assert (G : forall p, In p (rows_from 0 bh) -> exists s, state_at (snd p) (fst p) s /\
      case_code (snd p) s (match snd p with Star1 => code_at Star1 (fst p) | Star2 => code_at Star2 (fst p) + 10 end)%Z).
    { intros [i d] I. apply TR in I as (r & N & D). destruct (K i r d N D) as (s & S). exists s. split; [exact S|].
      destruct (row_case_ok d i r s N D S) as [_ BC]. destruct d; cbn [fst snd case_code]; [exact BC|].
      replace (code_at Star2 i + 10 - 10)%Z with (code_at Star2 i) by lia. exact BC. }
    clear -G. induction (rows_from 0 bh) as [|p l IH]; cbn [map]; [constructor|].
    constructor; [apply G; left; reflexivity|apply IH; intros; apply G; right; assumption]. }
  assert (OKC : Forall code_ok codes).
  { clear -F2. induction F2 as [|p c l l' (s & _ & H) _ IH]; constructor; [eapply case_code_ok; exact H|exact IH]. }
  assert (NE : codes <> []).
  { assert (I : In (i0, d0) (rows_from 0 bh)) by (apply TR; eauto). unfold codes. intros E. apply map_eq_nil in E. rewrite E in I. destruct I. }
  set (sh := fst (corrected_cases true codes)). pose proof (mt_shift codes) as SH. fold sh in SH.
  destruct (mt_flag codes true NE) as (out & s & w & FE & SU & TX). fold sh in SU.
  assert (NS : sh <> []) by (destruct SH as [L _]; intros E; rewrite E in L; destruct codes; [congruence|discriminate]).
  destruct (summary_text sh out NS (shifted_ok _ _ SH OKC) SU) as (unsure & core & -> & UN & TT).
  exists (rows_from 0 bh), codes, sh, unsure, core. do 5 (split; [assumption|]).
  unfold get_mass_transfer_flag. cbv zeta. rewrite A, B.
  destruct (existsb both_overflow bh) eqn:CE; [apply contact_spec in CE as (r' & I & Q); exfalso; eapply C; eauto|].
  assert (SD : negb (existsb rlof1 bh) && negb (existsb rlof2 bh) = false).
  { assert (E : existsb (fills d0) bh = true) by (apply some_donor; eauto). destruct d0; [change (existsb rlof1 bh = true) in E|change (existsb rlof2 bh = true) in E]; rewrite E; [|rewrite andb_false_r]; reflexivity. }
  rewrite SD. assert (FH : forall d, negb start && match bh with r :: _ => fills d r | [] => false end = false).
  { intros d. destruct ST as [-> |ST]; [reflexivity|]. apply andb_false_intro2. destruct bh as [|r rest]; [reflexivity|].
    destruct (fills d r) eqn:E; [|reflexivity]. apply fills_spec in E. exfalso. eapply ST; [reflexivity|exact E]. }
  pose proof (block Star1 0 start (map (fun _ => None) bh) (map_length _ _) (fun i r => K i r Star1)) as B1. rewrite FH in B1.
  change (map (fills Star1) bh) with (map rlof1 bh) in B1. change (history_of Star1) with h1 in B1. change (masses Star1) with (map m1 bh) in B1.
  change (overflow Star1) with rel1 in B1. rewrite B1. cbn [rbind].
  pose proof (block Star2 10 start (zm (fun i => code_at Star1 i + 0)%Z (map rlof1 bh) (map (fun _ => None) bh))
    (eq_trans (zm_length _ _ _) (map_length _ _)) (fun i r => K i r Star2)) as B2. rewrite FH in B2.
  change (map (fills Star2) bh) with (map rlof2 bh) in B2. change (history_of Star2) with h2 in B2. change (masses Star2) with (map m2 bh) in B2.
  change (overflow Star2) with rel2 in B2. rewrite B2. cbn [rbind].
  rewrite present_zm. fold codes. rewrite FE. cbn [rbind fst]. f_equal. rewrite TX in TT. exact TT.
Qed.
(** A state that is needed but cannot be read stops the computation. *)
Theorem C65_unreadable start f i r d : undecided f -> (forall r, In r bh -> ~ contact r) ->
  (start = true \/ forall r d, nth_error bh 0 = Some r -> ~ donates d r) ->
  nth_error bh i = Some r -> donates d r -> (forall s, ~ state_at d i s) ->
  exists e, get_mass_transfer_flag fsub round10 rel bh h1 h2 start f = Raise e.
Proof.
  intros U C ST N D K. destruct (undecided_pools f U) as [A B]. unfold get_mass_transfer_flag. cbv zeta. rewrite A, B.
  destruct (existsb both_overflow bh) eqn:CE; [apply contact_spec in CE as (r' & I & Q); exfalso; eapply C; eauto|].
  assert (SD : negb (existsb rlof1 bh) && negb (existsb rlof2 bh) = false).
  { assert (E : existsb (fills d) bh = true) by (apply some_donor; eauto). destruct d; [change (existsb rlof1 bh = true) in E|change (existsb rlof2 bh = true) in E]; rewrite E; [|rewrite andb_false_r]; reflexivity. }
  rewrite SD.
  assert (NB : forall d shift mt, star_cases fsub round10 rel shift (history_of d) (masses d) (overflow d) (map (fills d) bh) bh start mt <> Ok None).
  { intros d' shift mt. unfold star_cases. destruct (indices (map (fills d') bh)) as [|j l] eqn:E; [discriminate|].
    assert (Q : negb start && (j =? 0) = false).
    { destruct ST as [-> |ST]; [reflexivity|]. apply andb_false_intro2, Nat.eqb_neq. intros Z. apply (indices_head d' j l E) in Z as (r1 & X & Y).
      eapply ST; eauto. }
    rewrite Q. destruct (cases _ _ _ _ _ _ _ _); discriminate. }
  assert (RB : forall shift mt, exists e,
    star_cases fsub round10 rel shift (history_of d) (masses d) (overflow d) (map (fills d) bh) bh start mt = Raise e).
  { intros shift mt. specialize (NB d shift mt). revert NB. unfold star_cases. assert (I : In i (indices (map (fills d) bh))) by (apply indices_in; eauto).
    destruct (indices (map (fills d) bh)) as [|j l] eqn:E; [destruct I|]. destruct (negb start && (j =? 0)); [congruence|]. intros _.
    change (cases fsub round10 rel (history_of d) (masses d) (overflow d) bh (j :: l)) with (collect (map (row_case d) (j :: l))).
    assert (R : exists e, row_case d i = Raise e).
    { unfold row_case. unfold state_at in K. destruct (check_state_from_history _ _ _ _ _ _) as [s|e]; [exfalso; eapply K; reflexivity|]. eexists; reflexivity. }
    assert (G : forall l, In i l -> exists e, collect (map (row_case d) l) = Raise e).
    { destruct R as [e R]. induction l0 as [|x l0 IH]; intros I0; [destruct I0|]. cbn [map collect]. destruct (row_case d x) as [c|e'] eqn:RX; [|eexists; reflexivity].
      cbn [rbind]. destruct I0 as [-> |I0]; [congruence|]. destruct (IH I0) as [e' ->]. eexists; reflexivity. }
    destruct (G _ I) as [e ->]. eexists; reflexivity. }
  destruct d.
  - destruct (RB 0%Z (map (fun _ => None) bh)) as [e E]. exists e.
    change (star_cases fsub round10 rel 0 h1 (map m1 bh) rel1 (map rlof1 bh) bh start (map (fun _ => None) bh) = Raise e) in E. rewrite E. reflexivity.
  - pose proof (NB Star1 0%Z (map (fun _ => None) bh)) as N1.
    change (star_cases fsub round10 rel 0 h1 (map m1 bh) rel1 (map rlof1 bh) bh start (map (fun _ => None) bh) <> Ok None) in N1.
    destruct (star_cases fsub round10 rel 0 h1 _ _ _ _ _ _) as [[mt|]|e]; [|congruence|eexists; reflexivity]. cbn [rbind].
    destruct (RB 10%Z mt) as [e E]. exists e.
    change (star_cases fsub round10 rel 10 h2 (map m2 bh) rel2 (map rlof2 bh) bh start mt = Raise e) in E. rewrite E. reflexivity.
Qed.
End Runs.
Print Assumptions C65_failed.
Print Assumptions C65_initial.
Print Assumptions C65_contact.
Print Assumptions C65_none.
Print Assumptions C65_at_start.
Print Assumptions C65_summary.
Print Assumptions C65_unreadable.

(** A detached row, star 1 filling its lobe on the main sequence, again with a helium core, then a reverse episode. *)
Definition fq (x : Q) : pnum := Some (Fin x).
Definition ms_row : star_row := Row (fq 10) (fq (7#10)) (fq (7#10)) (fq (28#100)) (fq 0) (fq 3) (fq (-20#1)) (fq 3).
Definition he_row : star_row := Row (fq 10) (fq (7#10)) (fq 0) (fq (98#100)) (fq 0) (fq (-20#1)) (fq 4) (fq 4).
Definition odd_row : star_row := Row (fq 10) (fq 0) (fq (7#10)) (fq (28#100)) (fq 0) (fq 3) (fq (-20#1)) (fq 3).
Definition quiet_row : brow := BRow (Fin (-1)) (Fin (-1)) (Fin (-99#1)) (Fin 10) (Fin 5).
Definition row_1 : brow := BRow (Fin (1#10)) (Fin (-1)) (Fin (-5#1)) (Fin 10) (Fin 5).
Definition row_2 : brow := BRow (Fin (-1)) (Fin (-1#2)) (Fin (-5#1)) (Fin 10) (Fin 5).
Definition run_flag (bh : list brow) (h1 h2 : list star_row) (start : bool) : result string :=
  get_mass_transfer_flag exact_sub exact_round (Fin (-15#10)) bh (Some (History true h1)) (Some (History true h2)) start (Some "max_age").
Example C65_runs :
  run_flag [ quiet_row; row_1; row_1; row_2 ] [ ms_row; ms_row; he_row; he_row ] [ ms_row; ms_row; ms_row; ms_row ] false = Ok "case_A1/B1/A2"
  /\ run_flag [ quiet_row; quiet_row ] [ ms_row; ms_row ] [ ms_row; ms_row ] false = Ok "no_RLOF"
  /\ run_flag [ row_1; row_1 ] [ ms_row; ms_row ] [ ms_row; ms_row ] false = Ok "initial_RLOF"
  /\ run_flag [ row_1; row_1 ] [ ms_row; ms_row ] [ ms_row; ms_row ] true = Ok "case_A1"
  /\ run_flag [ quiet_row; BRow (Fin (1#2)) (Fin (1#4)) NaN (Fin 10) (Fin 5) ] [ ms_row; ms_row ] [ ms_row; ms_row ] false = Ok "contact_during_MS"
  (** a history shorter than the orbit's *)
  /\ run_flag [ quiet_row; row_1 ] [ ms_row ] [ ms_row; ms_row ] false = Raise IndexError.
Proof. repeat split. Qed.
Example C65_hypotheses :
  let bh := [ quiet_row; row_1; row_2 ] in
  undecided (Some "max_age") /\ (forall r, In r bh -> ~ contact r) /\ donates Star1 row_1 /\ donates Star2 row_2 /\
  (forall r d, nth_error bh 0 = Some r -> ~ donates d r).
Proof.
  cbv zeta. split; [intros s E I; injection E as <-; cbn in I; intuition discriminate|].
  split; [intros r I [A B]; cbn in I; destruct I as [<-|[<-|[<-|[]]]]; discriminate|].
  split; [split; [left; reflexivity|reflexivity]|]. split; [split; [right; reflexivity|reflexivity]|].
  intros r d E [[A|A] B]; injection E as <-; destruct d; discriminate.
Qed.
(** An order of the episodes is not kept in general: once a star 1 donor could not be classified, its later, ordinary cases
    are lost; the flag is then the same as for a run where star 1 is never classified. *)
Theorem C65_keeps_cases_refuted :
  run_flag [ quiet_row; row_1; row_1 ] [ ms_row; odd_row; he_row ] [ ms_row; ms_row; ms_row ] false = Ok "?" /\
  run_flag [ quiet_row; row_1; row_1 ] [ ms_row; he_row; odd_row ] [ ms_row; ms_row; ms_row ] false = Ok "?case_B1".
Proof. split; reflexivity. Qed.
Print Assumptions C65_keeps_cases_refuted.
