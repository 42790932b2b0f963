(** Matching of stars to single-star tracks: the first guess, the attempts and what is accepted (track_match.py:473-603, 819-1458). *)
From Coq Require Import String Bool List ZArith QArith Qabs Lia Lqa Arith.
From Verif Require Import PyBase FlowChartModel DetStepModel FromRunProofs MatchModel.
Import ListNotations.
Open Scope list_scope.
Open Scope string_scope.
Open Scope Q_scope.

(** ** C172: the first guess is the closest point of the grid *)
(** The squared distance of a row to the star over the quantities matched. *)
Definition key_at (k : string) (row : list Q) (x : Q) : Prop := exists i, nth_error root_keys i = Some k /\ nth i row 0 = x.
Inductive sq_dist (row : list Q) : list string -> list Q -> list Q -> Q -> Prop :=
| sq_nil : sq_dist row [] [] [] 0
| sq_cons : forall n ns v vs f fs x d, key_at n row x -> sq_dist row ns vs fs d -> sq_dist row (n :: ns) (v :: vs) (f :: fs) (((x - v) / f) ^ 2 + d).
Definition row_at (g : grid) (i j : nat) (m : Q) (row : list Q) : Prop := exists rows, nth_error g i = Some (m, rows) /\ nth_error rows j = Some row.

Lemma index_of_some : forall k l, In k l -> exists i, index_of k l = Some i /\ nth_error l i = Some k.
Proof.
  induction l as [|x r IH]; intros I; [contradiction|]. cbn. destruct (String.eqb_spec k x) as [-> |N].
  - exists 0%nat. split; reflexivity.
  - destruct I as [E|I]; [congruence|]. destruct (IH I) as (i & A & B). exists (S i). rewrite A. split; [reflexivity|exact B].
Qed.
Lemma index_of_nth : forall k l i, NoDup l -> nth_error l i = Some k -> index_of k l = Some i.
Proof.
  induction l as [|x r IH]; intros i ND E; [destruct i; discriminate|]. inversion ND; subst. destruct i as [|i]; cbn in *.
  - assert (x = k) by congruence. subst. now rewrite String.eqb_refl.
  - destruct (String.eqb_spec k x) as [-> |N]; [exfalso; apply H1; eapply nth_error_In; exact E|]. now rewrite (IH i H2 E).
Qed.
Lemma root_keys_NoDup : NoDup root_keys.
Proof. unfold root_keys. repeat constructor; cbn; intuition discriminate. Qed.
Lemma key_at_iff : forall k row x, In k root_keys -> (key_at k row x <-> nth (column_of k) row 0 = x).
Proof.
  intros k row x I. destruct (index_of_some k root_keys I) as (i & A & B). unfold column_of. rewrite A. split.
  - intros (j & C & D). rewrite (index_of_nth k root_keys j root_keys_NoDup C) in A. assert (j = i) by congruence. now subst.
  - intros E. now exists i.
Qed.
Lemma dist_row_spec : forall row names vals facs d, Forall (fun n => In n root_keys) names ->
  sq_dist row names vals facs d -> dist_row row names (map Some vals) facs = Fin d.
Proof.
  intros row names vals facs d A H. revert A. induction H as [|n ns v vs f fs x d K H IH]; intros A; [reflexivity|]. inversion A; subst. cbn.
  rewrite (IH H3). apply key_at_iff in K; [|assumption]. now rewrite K.
Qed.
Lemma sq_dist_exists : forall row names vals facs, Forall (fun n => In n root_keys) names -> length vals = length names -> length facs = length names ->
  exists d, sq_dist row names vals facs d.
Proof.
  induction names as [|n ns IH]; intros vals facs A B C; destruct vals as [|v vs], facs as [|f fs]; try discriminate; [exists 0; constructor|].
  inversion A; subst. destruct (IH vs fs H2) as (d & D); [now inversion B|now inversion C|].
  exists (((nth (column_of n) row 0 - v) / f) ^ 2 + d). constructor; [now apply key_at_iff|exact D].
Qed.
Lemma sq_dist_fun : forall row names vals facs d d', Forall (fun n => In n root_keys) names -> sq_dist row names vals facs d ->
  sq_dist row names vals facs d' -> d = d'.
Proof. intros. apply dist_row_spec in H0; [|assumption]. apply dist_row_spec in H1; [|assumption]. congruence. Qed.

(** The first minimum. *)
Definition le_ext (x y : ext) : Prop := before y x = false.
Lemma before_irrefl : forall x, before x x = false.
Proof. intros [q| |]; cbn; try reflexivity. destruct (Qle_bool q q) eqn:E; [reflexivity|]. assert (~ q <= q) by (intros H; apply Qle_bool_iff in H; congruence). exfalso. apply H. lra. Qed.
Lemma Qle_bool_false : forall x y, Qle_bool x y = false <-> y < x.
Proof.
  intros x y. destruct (Qle_bool x y) eqn:E.
  - apply Qle_bool_iff in E. split; [discriminate|intros; lra].
  - split; [|reflexivity]. intros _. apply Qnot_le_lt. intros H. apply Qle_bool_iff in H. congruence.
Qed.
Lemma before_trans : forall x y z, before x y = true -> le_ext y z -> before x z = true.
Proof.
  unfold le_ext. intros [a| |] [b| |] [c| |]; cbn; try congruence. intros A B. apply negb_true_iff in A. apply negb_false_iff in B.
  apply Qle_bool_false in A. apply Qle_bool_iff in B. apply negb_true_iff, Qle_bool_false. lra.
Qed.
Lemma before_asym : forall x y, before x y = true -> before y x = false.
Proof.
  intros [a| |] [b| |]; cbn; try congruence. intros A. apply negb_true_iff, Qle_bool_false in A. apply negb_false_iff, Qle_bool_iff. lra.
Qed.
Lemma argmin_from_spec : forall l k b v pre, length pre = k -> (b < k)%nat -> nth_error pre b = Some v ->
  (forall i x, nth_error pre i = Some x -> le_ext v x) -> (forall i x, (i < b)%nat -> nth_error pre i = Some x -> before v x = true) ->
  exists w, nth_error (pre ++ l)%list (argmin_from k b v l) = Some w /\ (forall i x, nth_error (pre ++ l)%list i = Some x -> le_ext w x) /\
    (forall i x, (i < argmin_from k b v l)%nat -> nth_error (pre ++ l)%list i = Some x -> before w x = true).
Proof.
  induction l as [|y r IH]; intros k b v pre LP B NB LE ST.
  - rewrite app_nil_r. exists v. cbn. repeat split; assumption.
  - assert (RE : (pre ++ y :: r)%list = ((pre ++ [y]) ++ r)%list) by (rewrite <- app_assoc; reflexivity). rewrite RE. cbn [argmin_from].
    assert (NL : nth_error (pre ++ [y])%list k = Some y) by (rewrite nth_error_app2 by lia; now replace (k - length pre)%nat with 0%nat by lia).
    destruct (before y v) eqn:E.
    + apply IH.
      * rewrite app_length. cbn. lia.
      * lia.
      * exact NL.
      * intros i x H. destruct (Nat.lt_ge_cases i (length pre)) as [I|I].
        -- rewrite nth_error_app1 in H by exact I. apply before_asym. eapply before_trans; [exact E|]. eapply LE, H.
        -- rewrite nth_error_app2 in H by exact I. destruct (i - length pre)%nat as [|[|?]]; cbn in H; try discriminate.
           assert (y = x) by congruence. subst. apply before_irrefl.
      * intros i x H H0. rewrite nth_error_app1 in H0 by lia. eapply before_trans; [exact E|]. eapply LE, H0.
    + apply IH.
      * rewrite app_length. cbn. lia.
      * lia.
      * rewrite nth_error_app1 by lia. exact NB.
      * intros i x H. destruct (Nat.lt_ge_cases i (length pre)) as [I|I].
        -- rewrite nth_error_app1 in H by exact I. eapply LE, H.
        -- rewrite nth_error_app2 in H by exact I. destruct (i - length pre)%nat as [|[|?]]; cbn in H; try discriminate.
           assert (y = x) by congruence. subst. exact E.
      * intros i x H H0. rewrite nth_error_app1 in H0 by lia. eapply ST; [exact H|exact H0].
Qed.
Lemma argmin_spec : forall l k, argmin l = Some k -> exists w, nth_error l k = Some w /\ (forall i x, nth_error l i = Some x -> le_ext w x) /\
    (forall i x, (i < k)%nat -> nth_error l i = Some x -> before w x = true).
Proof.
  intros [|y r] k E; [discriminate|]. unfold argmin in E. assert (k = argmin_from 1 0 y r) by congruence. subst k.
  apply (argmin_from_spec r 1 0 y [y]); [reflexivity|lia|reflexivity| |].
  - intros i x H. destruct i as [|[|i]]; cbn in H; try discriminate. assert (y = x) by congruence. subst. apply before_irrefl.
  - intros i x H. lia.
Qed.

(** The flat index of a table whose lines are all of the same length. *)
Lemma nth_error_concat : forall {A} n (ll : list (list A)) i j, Forall (fun l => length l = n) ll -> (j < n)%nat ->
  nth_error (concat ll) (i * n + j) = match nth_error ll i with Some l => nth_error l j | None => None end.
Proof.
  intros A n. induction ll as [|l r IH]; intros i j F J; [destruct i, j; cbn; try reflexivity; now destruct (n + i * n)%nat|].
  inversion F; subst. cbn [concat]. destruct i as [|i].
  - cbn. rewrite nth_error_app1; [reflexivity|assumption].
  - cbn [nth_error]. rewrite nth_error_app2 by (cbn; lia). replace (S i * length l + j - length l)%nat with (i * length l + j)%nat by (cbn; lia).
    apply IH; assumption.
Qed.
Lemma rootm_lengths : forall g, Forall (fun l => length l = max_track_length g) (rootm g).
Proof.
  intros g. unfold rootm. apply Forall_map, Forall_forall. intros t I. unfold padded. rewrite app_length, map_length, repeat_length.
  assert (length (snd t) <= max_track_length g)%nat; [|lia]. unfold max_track_length. induction g as [|u r IH]; [contradiction|].
  cbn. destruct I as [-> |I]; [lia|]. specialize (IH I). lia.
Qed.
Lemma padded_nth : forall n rows j, nth_error (padded n rows) j = match nth_error rows j with Some r => Some (Some r) | None => if (j <? Nat.max n (length rows))%nat then Some None else None end.
Proof.
  intros n rows j. unfold padded. destruct (nth_error rows j) as [r|] eqn:E.
  - assert (j < length rows)%nat by (apply nth_error_Some; congruence). rewrite nth_error_app1 by now rewrite map_length. now apply map_nth_error.
  - apply nth_error_None in E. rewrite nth_error_app2 by (rewrite map_length; lia). rewrite map_length.
    destruct (Nat.ltb_spec j (Nat.max n (length rows))).
    + apply nth_error_repeat. lia.
    + apply nth_error_None. rewrite repeat_length. lia.
Qed.
Lemma row_in_table : forall g i j m row, row_at g i j m row -> (j < max_track_length g)%nat /\
  nth_error (concat (rootm g)) (i * max_track_length g + j) = Some (Some row).
Proof.
  intros g i j m row (rows & A & B). assert (J : (j < max_track_length g)%nat).
  { assert (F := rootm_lengths g). assert (j < length rows)%nat by (apply nth_error_Some; congruence).
    rewrite Forall_forall in F. specialize (F (padded (max_track_length g) rows)). unfold padded in F at 2. rewrite app_length, map_length, repeat_length in F.
    assert (In (padded (max_track_length g) rows) (rootm g)) by (unfold rootm; apply in_map_iff; exists (m, rows); split; [reflexivity|eapply nth_error_In; exact A]).
    specialize (F H0). lia. }
  split; [exact J|]. rewrite nth_error_concat; [|apply rootm_lengths|exact J]. unfold rootm at 1.
  rewrite (map_nth_error (fun t => padded (max_track_length g) (snd t)) i g A). cbn [snd]. rewrite padded_nth, B. reflexivity.
Qed.
Lemma table_cell : forall g k c, nth_error (concat (rootm g)) k = Some c -> (0 < max_track_length g)%nat /\
  exists m rows, nth_error g (k / max_track_length g) = Some (m, rows) /\
    nth_error (padded (max_track_length g) rows) (k mod max_track_length g) = Some c.
Proof.
  intros g k c E. set (n := max_track_length g) in *. assert (F := rootm_lengths g). fold n in F. destruct (Nat.eq_dec n 0) as [Z|Z].
  - exfalso. assert (concat (rootm g) = []). { clear E. induction (rootm g) as [|l r IH]; [reflexivity|]. inversion F; subst. destruct l; [|cbn in *; lia]. cbn. apply IH. assumption. }
    rewrite H in E. now destruct k.
  - split; [lia|]. assert (k = k / n * n + k mod n)%nat by (rewrite Nat.mul_comm; now apply Nat.div_mod). rewrite H in E.
    rewrite nth_error_concat in E; [|exact F|now apply Nat.mod_upper_bound].
    unfold rootm in E. rewrite nth_error_map in E. fold n in E. destruct (nth_error g (k / n)) as [[m rows]|] eqn:G; [|discriminate].
    exists m, rows. split; [reflexivity|exact E].
Qed.

Theorem C172_closest : forall g names vals facs, Forall (fun n => In n root_keys) names -> length vals = length names -> length facs = length names ->
  (exists i j m row, row_at g i j m row) ->
  exists i j m row d, row_at g i j m row /\ get_root0 g names (map Some vals) (Some facs) = Ok (m, Some (nth 0 row 0)) /\ sq_dist row names vals facs d /\
    (forall i' j' m' row' d', row_at g i' j' m' row' -> sq_dist row' names vals facs d' -> d <= d') /\
    (forall i' j' m' row' d', (i' < i \/ i' = i /\ j' < j)%nat -> row_at g i' j' m' row' -> sq_dist row' names vals facs d' -> d < d').
Proof.
  intros g names vals facs A B C (i0 & j0 & m0 & row0 & R0). unfold get_root0. set (n := max_track_length g).
  assert (NN : forall row, exists d, sq_dist row names vals facs d) by (intros; now apply sq_dist_exists).
  assert (ID : existsb is_nan (map Some vals) = false) by (clear; induction vals; [reflexivity|exact IHvals]).
  destruct (row_in_table g i0 j0 m0 row0 R0) as [J0 T0]. fold n in J0, T0.
  destruct (argmin (map (dist names (map Some vals) facs) (concat (rootm g)))) as [k|] eqn:E.
  2: { destruct (concat (rootm g)) eqn:X; [destruct (i0 * n + j0)%nat; discriminate|discriminate]. }
  destruct (argmin_spec _ _ E) as (w & W1 & W2 & W3). rewrite nth_error_map in W1. destruct (nth_error (concat (rootm g)) k) as [c|] eqn:K; [|discriminate].
  cbn in W1. assert (WE : w = dist names (map Some vals) facs c) by congruence. clear W1.
  assert (RD : forall i' j' m' row' d', row_at g i' j' m' row' -> sq_dist row' names vals facs d' ->
    nth_error (map (dist names (map Some vals) facs) (concat (rootm g))) (i' * n + j') = Some (Fin d')).
  { intros i' j' m' row' d' R D. destruct (row_in_table g i' j' m' row' R) as [_ T]. fold n in T. rewrite nth_error_map, T. cbn.
    now rewrite (dist_row_spec row' names vals facs d' A D). }
  destruct (table_cell g k c K) as (NZ & m & rows & G & P). fold n in NZ, G, P.
  destruct c as [row|].
  - destruct (NN row) as (d & D). assert (W : w = Fin d) by (rewrite WE; cbn; now apply dist_row_spec).
    rewrite padded_nth in P. destruct (nth_error rows (k mod n)) as [r|] eqn:RR; [|destruct (k mod n <? Nat.max n (length rows))%nat; discriminate].
    assert (r = row) by congruence. subst r.
    assert (RA : row_at g (k / n) (k mod n) m row) by (exists rows; split; assumption).
    assert (KE : k = (k / n * n + k mod n)%nat) by (rewrite Nat.mul_comm; apply Nat.div_mod; lia).
    exists (k / n)%nat, (k mod n)%nat, m, row, d. split; [exact RA|]. split; [|split; [exact D|split]].
    + f_equal. f_equal.
      * rewrite (nth_indep _ 0 (fst (0, @nil (list Q)))) by (rewrite map_length; apply nth_error_Some; congruence). rewrite map_nth.
        now rewrite (nth_error_nth g _ (0, []) G).
      * assert (TN : nth_error (rootm g) (k / n) = Some (padded n rows)) by (unfold rootm; now rewrite nth_error_map, G).
        rewrite (nth_error_nth (rootm g) (k / n) [] TN). rewrite (nth_error_nth (padded n rows) (k mod n) None (x := Some row)); [reflexivity|].
        rewrite padded_nth, RR. reflexivity.
    + intros i' j' m' row' d' R D'. assert (X := W2 _ _ (RD _ _ _ _ _ R D')). rewrite W in X. unfold le_ext in X. cbn in X.
      apply negb_false_iff, Qle_bool_iff in X. exact X.
    + intros i' j' m' row' d' LT R D'. destruct (row_in_table g i' j' m' row' R) as [J' _]. fold n in J'.
      assert (i' * n + j' < k)%nat. { rewrite KE. assert (Q2 := Nat.mod_upper_bound k n ltac:(lia)). destruct LT as [LT|[-> LT]]; [|lia]. nia. }
      assert (X := W3 _ _ H (RD _ _ _ _ _ R D')). rewrite W in X. cbn in X. apply negb_true_iff, Qle_bool_false in X. exact X.
  - exfalso. cbn in WE. rewrite ID in WE. destruct (NN row0) as (d0 & D0). assert (X := W2 _ _ (RD _ _ _ _ _ R0 D0)). rewrite WE in X. discriminate.
Qed.
(** A star one of whose quantities is unknown is given the first row of the first track, whatever the star is. *)
Lemma argmin_nan_first : forall l, argmin (NaN :: l) = Some 0%nat.
Proof. intros l. cbn. f_equal. generalize 1%nat. induction l as [|x r IH]; intros k; [reflexivity|]. cbn. destruct x; apply IH. Qed.
Lemma dist_row_nan : forall row names vals facs, length vals = length names -> length facs = length names -> In None vals -> dist_row row names vals facs = NaN.
Proof.
  induction names as [|n ns IH]; intros vals facs B C I; destruct vals as [|v vs], facs as [|f fs]; try discriminate; try contradiction.
  cbn. destruct I as [-> |I]; [reflexivity|]. rewrite IH; [now destruct v|now inversion B|now inversion C|exact I].
Qed.
Theorem C172_unknown : forall names vals facs m row rows g, length vals = length names -> length facs = length names -> In None vals ->
  get_root0 ((m, row :: rows) :: g) names vals (Some facs) = Ok (m, Some (nth 0 row 0)).
Proof.
  intros names vals facs m row rows g B C I. unfold get_root0. set (G := (m, row :: rows) :: g). set (n := max_track_length G).
  assert (NZ : (0 < n)%nat) by (unfold n, max_track_length, G; cbn [map fold_right snd length]; lia).
  assert (E : exists t, concat (rootm G) = Some row :: t) by (unfold rootm, G; cbn; eexists; reflexivity).
  destruct E as (t & E). rewrite E. cbn [map]. replace (dist names vals facs (Some row)) with NaN by (symmetry; now apply dist_row_nan).
  rewrite argmin_nan_first. rewrite Nat.div_0_l, Nat.mod_0_l by lia. reflexivity.
Qed.
(** Without rescaling factors, as the documented default has it, there is always an error. *)
Theorem C172_factors_refuted : forall g names vals, get_root0 g names vals None = Raise (OtherError "UFuncTypeError").
Proof. reflexivity. Qed.
(** A quantity that is not stored for the guess is compared with the ages of the tracks. *)
Theorem C172_name_refuted : exists g v m t, ~ In "surface_n14" root_keys /\
  get_root0 g ["surface_n14"] [Some v] (Some [1]) = Ok (m, Some t) /\ t = 5 /\ v = 4.
Proof.
  exists [(10, [[0; 10; 0; 0; 7#10; 3#10; 0; 0; 0; 1]; [5; 9; 3; 0; 0; 98#100; 0; 0; 0; 2]])], 4, 10, 5.
  split; [cbn; intuition discriminate|]. repeat split.
Qed.
Example C172_case : get_root0 [(10, [[0; 10; 0; 0; 7#10; 3#10; 0; 0; 0; 1]; [5; 9; 3; 0; 0; 98#100; 0; 0; 0; 2]]); (20, [[0; 20; 0; 0; 7#10; 3#10; 0; 0; 0; 1]])]
  ["mass"; "log_R"] [Some (12 # 1); Some (18 # 10)] (Some [20; 2]) = Ok (10, Some 5).
Proof. reflexivity. Qed.

(** ** C173: what is tried *)
(** The attempts, from the documentation: quantities by state; the last one in the other grid, not for stars on the main sequence. *)
Inductive kind := MainSequence | Evolved | AccretedHeBurning | HeStar | PostHeStar | NoStar.
Definition kind_of (s : star_state) : kind :=
  match s with
  | HR_Core_H_burning | acc_Core_H_burning => MainSequence
  | str_Core_He_burning => HeStar
  | str_Core_He_depleted | str_Core_C_depleted | str_non_burning => PostHeStar
  | acc_Core_He_burning => AccretedHeBurning
  | WD | NS | BH | massless_remnant | SOther _ => NoStar
  | _ => Evolved
  end.
Definition plan (L : mlists) (s : star_state) (ht : bool) : list request :=
  match kind_of s with
  | MainSequence => [Req "TNC" ht (l_HMS L); Req "Powell" ht (l_HMS L); Req "TNC" ht (l_HMS_alt L)]
  | Evolved => [Req "TNC" ht (l_postMS L); Req "Powell" ht (l_postMS L); Req "TNC" ht (l_postMS_alt L); Req "TNC" false (l_postMS L)]
  | AccretedHeBurning => [Req "TNC" ht (l_postMS L); Req "Powell" ht (l_postMS L); Req "TNC" ht (l_postMS_alt L); Req "TNC" true (l_HeStar L)]
  | HeStar => [Req "TNC" ht (l_HeStar L); Req "Powell" ht (l_HeStar L); Req "TNC" ht (l_HeStar_alt L); Req "TNC" true (l_HeStar L)]
  | PostHeStar => [Req "TNC" ht (l_postHeMS L); Req "Powell" ht (l_postHeMS L); Req "TNC" ht (l_postHeMS_alt L); Req "TNC" true (l_postHeMS L)]
  | NoStar => []
  end.
Definition all_usable (L : mlists) : Prop := forall l, In l [l_HMS L; l_postMS L; l_HeStar L; l_postHeMS L; l_HMS_alt L; l_postMS_alt L; l_HeStar_alt L; l_postHeMS_alt L] ->
  Forall (fun n => In n root_keys /\ n <> "age") (l_names l).

(** The attempts over a list of requests. *)
Section Run.
Context (tol : Q) (minimize : request -> outcome).
Fixpoint run (p : list request) (ht : bool) (b : best) : result (best * bool * list request) :=
  match p with
  | [] => Ok (b, ht, [])
  | rq :: rest =>
    match minimize rq with
    | Exc => Raise (OtherError "NumericalError")
    | Sol x fo ok =>
      let f := match fo with Some f => f | None => BIG end in
      let better := Qltb (Qabs f) (best_fun b) && ok in
      let match_ok := Qle_bool (Qabs f) tol && ok in
      let b' := if better then Some (x, f) else b in
      let ht' := if better then rq_htrack rq else ht in
      if better && match_ok then Ok (b', ht', [rq])
      else rbind (run rest ht' b') (fun r => let '(b2, h2, tr) := r in Ok (b2, h2, rq :: tr))
    end
  end.
End Run.
Lemma usable_ok : forall l, Forall (fun n => In n root_keys /\ n <> "age") (l_names l) -> usable l = true.
Proof.
  intros l F. unfold usable. apply forallb_forall. intros n I. rewrite Forall_forall in F. destruct (F n I) as [A B].
  destruct (index_of_some n root_keys A) as (i & C & D). rewrite C. destruct i; [|reflexivity]. cbn in D. congruence.
Qed.
Lemma attempts_step : forall tol L s minimize t m rest ht b nh l p, get_match_attrs L s ht t = Ok (Some (nh, l)) -> usable l = true ->
  (forall ht' b', ht' = ht \/ ht' = nh -> attempts tol L s minimize rest ht' b' = run tol minimize p ht' b') ->
  attempts tol L s minimize ((t, m) :: rest) ht b = run tol minimize (Req m nh l :: p) ht b.
Proof.
  intros tol L s minimize t m rest ht b nh l p G U H. cbn [attempts run]. rewrite G. cbn [rbind]. rewrite U. cbn [negb rq_htrack].
  destruct (minimize (Req m nh l)) as [x fo ok|]; [|reflexivity].
  set (better := Qltb _ _ && ok). destruct better; cbn [andb].
  - destruct (Qle_bool _ tol && ok); [reflexivity|]. rewrite H by now right. reflexivity.
  - rewrite H by now left. reflexivity.
Qed.
Ltac lists_of := cbn [get_match_attrs];
  repeat match goal with |- context [star_in ?s ?l] => let v := eval vm_compute in (star_in s l) in replace (star_in s l) with v by (vm_compute; reflexivity) end;
  reflexivity.
Lemma attempts_run : forall tol L s minimize ht, all_usable L -> kind_of s <> NoStar ->
  attempts tol L s minimize match_sequence ht None = run tol minimize (plan L s ht) ht None.
Proof.
  intros tol L s minimize ht U K.
  assert (V : forall l, In l [l_HMS L; l_postMS L; l_HeStar L; l_postHeMS L; l_HMS_alt L; l_postMS_alt L; l_HeStar_alt L; l_postHeMS_alt L] -> usable l = true)
    by (intros l I; apply usable_ok, U, I).
  destruct s; try (exfalso; apply K; reflexivity); unfold plan, kind_of; unfold match_sequence;
  (eapply attempts_step; [lists_of|apply V; cbn; tauto|]; intros h1 b1 H1; assert (h1 = ht) by tauto; subst h1;
   eapply attempts_step; [lists_of|apply V; cbn; tauto|]; intros h2 b2 H2; assert (h2 = ht) by tauto; subst h2;
   eapply attempts_step; [lists_of|apply V; cbn; tauto|]; intros h3 b3 H3; assert (h3 = ht) by tauto; subst h3;
   first [reflexivity | eapply attempts_step; [lists_of|apply V; cbn; tauto|]; intros; reflexivity]).
Qed.
Lemma run_trace : forall tol minimize p ht b b' h tr, run tol minimize p ht b = Ok (b', h, tr) -> exists k, tr = firstn k p.
Proof.
  induction p as [|rq rest IH]; intros ht b b' h tr E; cbn [run] in E.
  - exists 0%nat. now assert (tr = []) by congruence.
  - destruct (minimize rq) as [x fo ok|]; [|discriminate]. match type of E with (if ?c then _ else _) = _ => destruct c end.
    + exists 1%nat. assert (tr = [rq]) by congruence. now subst.
    + destruct (bind_ok _ _ _ E) as ([[b2 h2] tr2] & R & F). destruct (IH _ _ _ _ _ R) as (k & K). exists (S k). assert (tr = rq :: tr2) by congruence. subst. reflexivity.
Qed.
Theorem C173_tried : forall tol hard L s minimize ht o h tr, all_usable L -> kind_of s <> NoStar ->
  match_through_minimize tol hard L s minimize ht = Ok (o, h, tr) -> exists k, tr = firstn k (plan L s ht).
Proof.
  intros tol hard L s minimize ht o h tr U K E. unfold match_through_minimize in E. rewrite attempts_run in E by assumption.
  destruct (bind_ok _ _ _ E) as ([[b h'] tr'] & R & F). assert (tr' = tr) by congruence. subst. eapply run_trace, R.
Qed.
(** Compact objects and unknown states are refused. *)
Theorem C173_refused : forall tol hard L s minimize ht, kind_of s = NoStar -> match_through_minimize tol hard L s minimize ht = Raise ValueError.
Proof. intros tol hard L s minimize ht K. destruct s; try discriminate; reflexivity. Qed.
(** A quantity that is not stored for the guess, or the age, is refused. *)
Theorem C173_names : forall tol hard L s minimize ht n, kind_of s = MainSequence -> In n (l_names (l_HMS L)) -> ~ In n root_keys \/ n = "age" ->
  match_through_minimize tol hard L s minimize ht = Raise AttributeError.
Proof.
  intros tol hard L s minimize ht n K I N. unfold match_through_minimize, match_sequence. cbn [attempts].
  assert (U : usable (l_HMS L) = false).
  { destruct (usable (l_HMS L)) eqn:E; [|reflexivity]. exfalso. unfold usable in E. rewrite forallb_forall in E. specialize (E n I).
    destruct N as [N| ->]; [|discriminate]. destruct (index_of n root_keys) as [i|] eqn:X; [|discriminate]. apply N. clear - X. revert i X.
    induction root_keys as [|y r IH]; intros i X; [discriminate|]. cbn in X. destruct (String.eqb_spec n y) as [-> |]; [now left|]. right.
    destruct (index_of n r) as [j|]; [|discriminate]. now apply (IH j). }
  destruct s; try discriminate; cbn -[usable]; rewrite U; reflexivity.
Qed.
(** With the lists that come with the code, the grid of a star as the roles have it: the first three attempts keep to the masses of the grid they search
    and the last to those of the grid it does not search... *)
Definition own (bH bHe : Q * Q) (ht : bool) : Q * Q := if ht then bH else bHe.
Definition default_lists (bH bHe : Q * Q) : mlists := matching_lists bH bHe None None None None.
Lemma usable_names : forall l, usable l = true -> Forall (fun n => In n root_keys /\ n <> "age") (l_names l).
Proof.
  intros l U. apply Forall_forall. intros n I. unfold usable in U. rewrite forallb_forall in U. specialize (U n I).
  destruct (index_of n root_keys) as [i|] eqn:E; [|discriminate]. split; [|intros ->; cbn in E; assert (i = 0)%nat by congruence; now subst].
  clear U I. revert i E. induction root_keys as [|y r IH]; intros i E; [discriminate|]. cbn in E. destruct (String.eqb_spec n y) as [-> |]; [now left|]. right.
  destruct (index_of n r) as [j|]; [|discriminate]. now apply (IH j).
Qed.
Lemma default_usable : forall bH bHe, all_usable (default_lists bH bHe).
Proof.
  intros bH bHe l I. apply usable_names. cbn [In] in I. repeat (destruct I as [<- |I]; [reflexivity|]). contradiction.
Qed.
Theorem C173_bounds : forall bH bHe s k rq, kind_of s <> NoStar -> kind_of s <> AccretedHeBurning ->
  nth_error (plan (default_lists bH bHe) s (htrack s)) k = Some rq ->
  ((k < 3)%nat -> rq_htrack rq = htrack s /\ l_mass (rq_list rq) = own bH bHe (rq_htrack rq)) /\
  (k = 3%nat -> rq_htrack rq = negb (htrack s) /\ l_mass (rq_list rq) = own bH bHe (negb (rq_htrack rq))).
Proof.
  intros bH bHe s k rq K A E. destruct s; try (exfalso; first [apply K; reflexivity|apply A; reflexivity]);
  (destruct k as [|[|[|[|k]]]]; cbn in E; [assert (X : rq = rq) by reflexivity ..|now destruct k]);
  try discriminate E; match type of E with Some ?r = Some rq => assert (EQ : rq = r) by congruence; subst rq end; split; intros H; try lia; split; reflexivity.
Qed.
(** ...except for stars that burn accreted helium: their own grid is that of stripped stars, searched with the masses and quantities of the H-rich one. *)
Theorem C173_accreted_refuted : forall bH bHe rq, htrack acc_Core_He_burning = false /\
  (nth_error (plan (default_lists bH bHe) acc_Core_He_burning (htrack acc_Core_He_burning)) 0 = Some rq -> rq_htrack rq = false /\ l_mass (rq_list rq) = bH).
Proof. intros. split; [reflexivity|]. intros E. cbn in E. match type of E with Some ?r = Some rq => assert (EQ : rq = r) by congruence; subst rq end. split; reflexivity. Qed.
(** The alternative quantities of stripped stars are the default ones: the third attempt asks what the first asked. *)
Theorem C173_repeated_refuted : forall bH bHe s, kind_of s = HeStar \/ kind_of s = PostHeStar -> forall ht,
  nth_error (plan (default_lists bH bHe) s ht) 2 = nth_error (plan (default_lists bH bHe) s ht) 0.
Proof. intros bH bHe s K ht. destruct s; destruct K as [K|K]; try discriminate K; reflexivity. Qed.
(** Lists given by the user replace the default ones but not the alternative ones. *)
Theorem C173_alternative : forall bH bHe u1 u2 u3 u4, let L := matching_lists bH bHe u1 u2 u3 u4 in let D := default_lists bH bHe in
  (l_HMS_alt L, l_postMS_alt L, l_HeStar_alt L, l_postHeMS_alt L) = (l_HMS_alt D, l_postMS_alt D, l_HeStar_alt D, l_postHeMS_alt D) /\
  forall l, u1 = Some l -> l_HMS L = l.
Proof. intros. split; [reflexivity|]. intros l ->. reflexivity. Qed.

(** ** C174: what is accepted *)
Definition solved (minimize : request -> outcome) (rq : request) (x : Q * Q) (f : Q) : Prop := minimize rq = Sol x (Some f) true.
Definition good (tol : Q) (minimize : request -> outcome) (rq : request) : Prop := exists x f, solved minimize rq x f /\ Qabs f <= tol.
Definition goes_on (tol : Q) (minimize : request -> outcome) (rq : request) : Prop := minimize rq <> Exc /\ ~ good tol minimize rq.
Lemma BIG_pos : 0 <= BIG.
Proof. vm_compute. discriminate. Qed.
Opaque BIG.
Lemma run_first_good : forall tol minimize p ht b k rq x f, tol < BIG -> tol < best_fun b -> nth_error p k = Some rq -> solved minimize rq x f -> Qabs f <= tol ->
  (forall j r, (j < k)%nat -> nth_error p j = Some r -> goes_on tol minimize r) ->
  run tol minimize p ht b = Ok (Some (x, f), rq_htrack rq, firstn (S k) p).
Proof.
  induction p as [|r rest IH]; intros ht b k rq x f TB TBB E S F G; [destruct k; discriminate|]. destruct k as [|k].
  - assert (r = rq) by (cbn in E; congruence). subst. cbn [run]. rewrite S. cbn [firstn].
    assert (A : Qltb (Qabs f) (best_fun b) = true) by (unfold Qltb; apply negb_true_iff, Qle_bool_false; lra). rewrite A.
    assert (B : Qle_bool (Qabs f) tol = true) by now apply Qle_bool_iff. rewrite B. reflexivity.
  - cbn in E. destruct (G 0%nat r ltac:(lia) eq_refl) as [NE NG]. cbn [run]. destruct (minimize r) as [x1 fo ok|] eqn:M; [|congruence].
    set (f1 := match fo with Some g => g | None => BIG end).
    destruct (Qltb (Qabs f1) (best_fun b) && ok) eqn:BE.
    + apply andb_true_iff in BE. destruct BE as [BE ->]. cbn [andb]. rewrite andb_true_r.
      assert (NT : tol < Qabs f1). { destruct fo as [g|]; [|unfold f1; rewrite Qabs_pos by exact BIG_pos; exact TB].
        apply Qnot_le_lt. intros H. apply NG. exists x1, g. split; [exact M|exact H]. }
      assert (B : Qle_bool (Qabs f1) tol = false) by (now apply Qle_bool_false). rewrite B.
      rewrite (IH (rq_htrack r) (Some (x1, f1)) k rq x f TB NT E S F); [reflexivity|]. intros j q J Q0. apply (G (Datatypes.S j)); [lia|exact Q0].
    + cbn [andb]. rewrite (IH ht b k rq x f TB TBB E S F); [reflexivity|]. intros j q J Q0. apply (G (Datatypes.S j)); [lia|exact Q0].
Qed.
Lemma run_exc : forall tol minimize p ht b k rq, tol < BIG -> nth_error p k = Some rq -> minimize rq = Exc ->
  (forall j r, (j < k)%nat -> nth_error p j = Some r -> goes_on tol minimize r) -> run tol minimize p ht b = Raise (OtherError "NumericalError").
Proof.
  induction p as [|r rest IH]; intros ht b k rq TB E S G; [destruct k; discriminate|]. destruct k as [|k].
  - assert (r = rq) by (cbn in E; congruence). subst. cbn [run]. now rewrite S.
  - cbn in E. destruct (G 0%nat r ltac:(lia) eq_refl) as [NE NG]. cbn [run]. destruct (minimize r) as [x1 fo ok|] eqn:M; [|congruence].
    set (f1 := match fo with Some g => g | None => BIG end).
    assert (X : (Qltb (Qabs f1) (best_fun b) && ok) && (Qle_bool (Qabs f1) tol && ok) = false).
    { destruct ok; [|now rewrite !andb_false_r]. rewrite !andb_true_r. apply andb_false_iff. right. apply Qle_bool_false.
      destruct fo as [g|]; [|unfold f1; rewrite Qabs_pos by exact BIG_pos; exact TB].
      apply Qnot_le_lt. intros H. apply NG. exists x1, g. split; [exact M|exact H]. }
    rewrite X. erewrite IH; [reflexivity|exact TB|exact E|exact S|]. intros j q J Q0. apply (G (Datatypes.S j)); [lia|exact Q0].
Qed.
(** Without a good solution, the best of the successful ones. *)
Lemma run_best : forall tol minimize p ht b, tol < BIG -> best_fun b <= BIG -> (forall rq, In rq p -> goes_on tol minimize rq) ->
  exists b' h, run tol minimize p ht b = Ok (b', h, p) /\
   ((b' = b /\ h = ht /\ forall rq x f, In rq p -> solved minimize rq x f -> best_fun b <= Qabs f) \/
    (exists k rq x f, nth_error p k = Some rq /\ solved minimize rq x f /\ Qabs f < best_fun b /\ b' = Some (x, f) /\ h = rq_htrack rq /\
       (forall j r y g, nth_error p j = Some r -> solved minimize r y g -> Qabs f <= Qabs g) /\
       (forall j r y g, (j < k)%nat -> nth_error p j = Some r -> solved minimize r y g -> Qabs f < Qabs g))).
Proof.
  induction p as [|r rest IH]; intros ht b TB BB G.
  - exists b, ht. split; [reflexivity|]. left. repeat split. intros rq x f I. contradiction.
  - destruct (G r (or_introl eq_refl)) as [NE NG]. cbn [run]. destruct (minimize r) as [x1 fo ok|] eqn:M; [|congruence].
    set (f1 := match fo with Some g => g | None => BIG end).
    assert (X : (Qltb (Qabs f1) (best_fun b) && ok) && (Qle_bool (Qabs f1) tol && ok) = false).
    { destruct ok; [|now rewrite !andb_false_r]. rewrite !andb_true_r. apply andb_false_iff. right. apply Qle_bool_false.
      destruct fo as [g|]; [|unfold f1; rewrite Qabs_pos by exact BIG_pos; exact TB].
      apply Qnot_le_lt. intros H. apply NG. exists x1, g. split; [exact M|exact H]. }
    rewrite X. destruct (Qltb (Qabs f1) (best_fun b) && ok) eqn:BE.
    + apply andb_true_iff in BE. destruct BE as [BE ->]. unfold Qltb in BE. apply negb_true_iff, Qle_bool_false in BE.
      destruct fo as [g|]; [|exfalso; unfold f1 in BE; rewrite Qabs_pos in BE by exact BIG_pos; lra].
      change f1 with g in *. clear f1.
      destruct (IH (rq_htrack r) (Some (x1, g)) TB) as (b' & h & R & C); [cbn; lra|intros q I; apply G; now right|].
      exists b', h. rewrite R. split; [reflexivity|]. right. destruct C as [(-> & -> & C)|(k & rq & x & f & C1 & C2 & C3 & C4 & C5 & C6 & C7)].
      * exists 0%nat, r, x1, g. split; [reflexivity|]. split; [exact M|]. split; [exact BE|]. split; [reflexivity|]. split; [reflexivity|]. split; [|intros; lia].
        intros j q y g' N S. destruct j as [|j].
        -- assert (q = r) by (cbn in N; congruence). subst. unfold solved in S. assert (g = g') by congruence. subst. lra.
        -- apply (C q y g'); [eapply nth_error_In; exact N|exact S].
      * exists (S k), rq, x, f. cbn in C3. split; [exact C1|]. split; [exact C2|]. split; [lra|]. split; [exact C4|]. split; [exact C5|]. split.
        -- intros j q y g' N S. destruct j as [|j]; [|now apply (C6 j q y g')]. assert (q = r) by (cbn in N; congruence). subst. unfold solved in S. assert (g = g') by congruence. subst. lra.
        -- intros j q y g' J N S. destruct j as [|j]; [|apply (C7 j q y g'); [lia|exact N|exact S]]. assert (q = r) by (cbn in N; congruence). subst. unfold solved in S. assert (g = g') by congruence. subst. lra.
    + assert (OK : forall y g', solved minimize r y g' -> best_fun b <= Qabs g').
      { intros y g' S. unfold solved in S. assert (EQ : Sol x1 fo ok = Sol y (Some g') true) by congruence. assert (ok = true) by congruence. assert (fo = Some g') by congruence. subst.
        rewrite andb_true_r in BE. unfold Qltb in BE. apply negb_false_iff, Qle_bool_iff in BE. exact BE. }
      destruct (IH ht b TB BB) as (b' & h & R & C); [intros q I; apply G; now right|].
      exists b', h. rewrite R. split; [reflexivity|]. destruct C as [(-> & -> & C)|(k & rq & x & f & C1 & C2 & C3 & C4 & C5 & C6 & C7)].
      * left. repeat split. intros rq x f I S. destruct I as [<- |I]; [eapply OK, S|eapply C; eassumption].
      * right. exists (S k), rq, x, f. split; [exact C1|]. split; [exact C2|]. split; [exact C3|]. split; [exact C4|]. split; [exact C5|]. split.
        -- intros j q y g' N S. destruct j as [|j]; [|now apply (C6 j q y g')]. assert (q = r) by (cbn in N; congruence). subst. apply OK in S. lra.
        -- intros j q y g' J N S. destruct j as [|j]; [|apply (C7 j q y g'); [lia|exact N|exact S]]. assert (q = r) by (cbn in N; congruence). subst. apply OK in S. lra.
Qed.

(** The first attempt within the tolerance ends the search; its solution is taken, and the star goes to the grid searched. *)
Theorem C174_first : forall tol hard L s minimize ht k rq x f, all_usable L -> kind_of s <> NoStar -> tol <= hard -> tol < BIG ->
  nth_error (plan L s ht) k = Some rq -> solved minimize rq x f -> Qabs f <= tol ->
  (forall j r, (j < k)%nat -> nth_error (plan L s ht) j = Some r -> goes_on tol minimize r) ->
  match_through_minimize tol hard L s minimize ht = Ok (Some x, rq_htrack rq, firstn (S k) (plan L s ht)).
Proof.
  intros tol hard L s minimize ht k rq x f U K TH TB E S F G. unfold match_through_minimize. rewrite attempts_run by assumption.
  rewrite (run_first_good tol minimize (plan L s ht) ht None k rq x f TB TB E S F G). cbn [rbind]. rewrite (proj2 (Qle_bool_iff (Qabs f) hard)) by lra. reflexivity.
Qed.
(** If there is none, all attempts are made; the best of the successful solutions is taken if it is within the hard tolerance, otherwise none. *)
Theorem C174_best : forall tol hard L s minimize ht, all_usable L -> kind_of s <> NoStar -> tol < BIG -> hard < BIG ->
  (forall r, In r (plan L s ht) -> goes_on tol minimize r) ->
  exists o h, match_through_minimize tol hard L s minimize ht = Ok (o, h, plan L s ht) /\
   (o = None <-> forall r y g, In r (plan L s ht) -> solved minimize r y g -> hard < Qabs g) /\
   (forall x, o = Some x -> exists k rq f, nth_error (plan L s ht) k = Some rq /\ solved minimize rq x f /\ Qabs f <= hard /\ h = rq_htrack rq /\
      (forall r y g, In r (plan L s ht) -> solved minimize r y g -> Qabs f <= Qabs g) /\
      (forall j r y g, (j < k)%nat -> nth_error (plan L s ht) j = Some r -> solved minimize r y g -> Qabs f < Qabs g)).
Proof.
  intros tol hard L s minimize ht U K TB HB G. unfold match_through_minimize. rewrite attempts_run by assumption.
  destruct (run_best tol minimize (plan L s ht) ht None TB) as (b' & h & R & C); [cbn; lra|exact G|]. rewrite R. cbn [rbind].
  destruct C as [(-> & -> & C)|(k & rq & x & f & C1 & C2 & C3 & C4 & C5 & C6 & C7)].
  - exists None, ht. split; [reflexivity|]. split; [|intros; discriminate]. split; [|reflexivity]. intros _ r y g I S. assert (X := C r y g I S). cbn in X. lra.
  - subst b'. destruct (Qle_bool (Qabs f) hard) eqn:HE.
    + apply Qle_bool_iff in HE. exists (Some x), h. split; [reflexivity|]. split.
      * split; [discriminate|]. intros N. exfalso. assert (X := N rq x f (nth_error_In _ _ C1) C2). lra.
      * intros x' EX. assert (x' = x) by congruence. subst x'. exists k, rq, f. split; [exact C1|]. split; [exact C2|]. split; [exact HE|]. split; [exact C5|]. split; [|exact C7].
        intros r y g I S. destruct (In_nth_error _ _ I) as (j & J). eapply C6; eassumption.
    + apply Qle_bool_false in HE. exists None, h. split; [reflexivity|]. split; [|intros; discriminate]. split; [|reflexivity].
      intros _ r y g I S. destruct (In_nth_error _ _ I) as (j & J). assert (X := C6 _ _ _ _ J S). lra.
Qed.
(** An error of the optimiser before a solution is within the tolerance fails the binary, whatever was found before. *)
Theorem C174_error : forall tol hard L s minimize ht k rq, all_usable L -> kind_of s <> NoStar -> tol < BIG ->
  nth_error (plan L s ht) k = Some rq -> minimize rq = Exc -> (forall j r, (j < k)%nat -> nth_error (plan L s ht) j = Some r -> goes_on tol minimize r) ->
  match_through_minimize tol hard L s minimize ht = Raise (OtherError "NumericalError").
Proof.
  intros. unfold match_through_minimize. rewrite attempts_run by assumption. now rewrite (run_exc tol minimize (plan L s ht) ht None k rq).
Qed.
Transparent BIG.
Definition req_is (m : string) (h : bool) (n : nat) (rq : request) : bool :=
  String.eqb (rq_method rq) m && Bool.eqb (rq_htrack rq) h && Nat.eqb (length (l_names (rq_list rq))) n.
(** A solution within the hard tolerance is thrown away when a later attempt raises. *)
Definition breaks_later : request -> outcome := fun rq =>
  if req_is "TNC" true 4 rq then Sol (20, 5) (Some (5 # 100)) true else if req_is "TNC" true 3 rq then Exc else Sol (20, 5) None false.
Definition DL := default_lists (1, 300) (1, 80).
Theorem C174_error_refuted : exists minimize rq x f, In rq (plan DL HR_Core_He_burning true) /\ solved minimize rq x f /\ Qabs f <= 1 # 10 /\
  match_through_minimize (1 # 100) (1 # 10) DL HR_Core_He_burning minimize true = Raise (OtherError "NumericalError").
Proof.
  exists breaks_later, (Req "TNC" true (l_postMS DL)), (20, 5), (5 # 100). split; [now left|]. split; [reflexivity|]. split; [cbn; unfold Qle; cbn; lia|reflexivity].
Qed.
(** A star may be moved to the other grid although no match is accepted. *)
Definition only_other_grid : request -> outcome := fun rq => if rq_htrack rq then Sol (20, 5) None false else Sol (20, 5) (Some (1 # 2)) true.
Theorem C174_grid_refuted : exists minimize tr, match_through_minimize (1 # 100) (1 # 10) DL HR_Core_He_burning minimize true = Ok (None, false, tr).
Proof. exists only_other_grid, (plan DL HR_Core_He_burning true). vm_compute. reflexivity. Qed.
Example C174_case : exists minimize, match_through_minimize (1 # 100) (1 # 10) DL HR_Core_He_burning minimize true = Ok (Some (20, 5), true, plan DL HR_Core_He_burning true) /\
  (forall r, In r (plan DL HR_Core_He_burning true) -> goes_on (1 # 100) minimize r).
Proof.
  exists (fun rq => if req_is "TNC" true 4 rq then Sol (20, 5) (Some (5 # 100)) true else Sol (30, 6) (Some (6 # 100)) true). split; [vm_compute; reflexivity|].
  intros r I. cbn in I. repeat (destruct I as [<- |I]); [..|contradiction]; (split; [discriminate|]); intros (x & f & S & F); vm_compute in S;
  (match type of S with Sol _ (Some ?q) _ = _ => assert (f = q) by congruence; subst f end); revert F; vm_compute; intros F; now apply F.
Qed.
(** The other method: the root found counts if the solver succeeded and its age is not negative. *)
Theorem C174_root : forall x t ok, match_through_root ((x, t), ok) = Some (x, t) <-> ok = true /\ 0 <= t.
Proof.
  intros x t ok. unfold match_through_root. cbn [fst snd]. destruct ok; cbn [negb orb]; [|split; [discriminate|intros [H _]; discriminate]].
  unfold Qltb. destruct (Qle_bool 0 t) eqn:E; cbn [negb].
  - apply Qle_bool_iff in E. split; [intros _; split; [reflexivity|exact E]|reflexivity].
  - apply Qle_bool_false in E. split; [discriminate|intros [_ H]; lra].
Qed.
Print Assumptions C172_closest.
Print Assumptions C172_unknown.
Print Assumptions C172_factors_refuted.
Print Assumptions C172_name_refuted.
Print Assumptions C173_tried.
Print Assumptions C173_refused.
Print Assumptions C173_names.
Print Assumptions C173_bounds.
Print Assumptions C173_accreted_refuted.
Print Assumptions C173_repeated_refuted.
Print Assumptions C173_alternative.
Print Assumptions C174_first.
Print Assumptions C174_best.
Print Assumptions C174_error.
Print Assumptions C174_error_refuted.
Print Assumptions C174_grid_refuted.
Print Assumptions C174_root.
