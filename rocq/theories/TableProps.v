(** C30: access to the tables of a population by index, slice, list, mask and column. *)
From Coq Require Import String List ZArith Bool Lia PeanoNat.
From Verif Require Import PyBase PyList TableModel TableSpec TableProofs.
Import ListNotations.
Open Scope string_scope.
Open Scope nat_scope.
Open Scope list_scope.

(** The binaries a key asks for, in a population of [n] systems: slices are ranges of labels,
    starting at 0 and covering [n] labels if not given otherwise. *)
Definition asked (n : nat) (k : key) (i : Z) : Prop :=
  match k with
  | KInt j => i = j
  | KInts l | KIntArray l => In i l
  | KSlice a b =>
      let from := match a with Some a => a | None => 0%Z end in
      (from <= i < match b with Some b => b | None => from + Z.of_nat n end)%Z
  | _ => False
  end.

(** Whatever the chunk size, exactly the rows of the binaries asked for are returned, in file
    order; if the file has none of them, a ValueError is raised. *)
Theorem history_by_label : forall A (h : history A) k, 1 <= h_chunk h -> (exists i, asked (h_systems h) k i) ->
  (has_label (asked (h_systems h) k) (h_rows h) ->
     exists out, history_get h k = Ok (Rows out) /\ labelled (asked (h_systems h) k) (h_rows h) out) /\
  (~ has_label (asked (h_systems h) k) (h_rows h) -> history_get h k = Raise ValueError).
Proof.
  intros A h k C [i0 I0].
  assert (forall l, l <> [] -> (forall i, asked (h_systems h) k i <-> In i l) ->
    (has_label (asked (h_systems h) k) (h_rows h) ->
       exists out, as_rows (select_in (h_chunk h) (h_rows h) l) = Ok (Rows out)
                   /\ labelled (asked (h_systems h) k) (h_rows h) out) /\
    (~ has_label (asked (h_systems h) k) (h_rows h) -> as_rows (select_in (h_chunk h) (h_rows h) l) = Raise ValueError)) as KEY.
  { intros l N E. unfold select_in. destruct l as [|x l]; [congruence|].
    destruct (select_where_ok A (h_chunk h) (h_rows h) (asked (h_systems h) k) (fun i => zin i (x :: l)) C) as [P1 P2].
    { intro i. rewrite E. apply zin_iff. }
    split.
    - intro H. destruct (P1 H) as (out & -> & L). exists out. split; [reflexivity | exact L].
    - intro H. rewrite (P2 H). reflexivity. }
  destruct k as [a b|j|l|l|m|nm|nms|fl| ]; cbn [asked] in I0; try contradiction; cbn [history_get].
  - set (pre := match a with Some a => a | None => 0%Z end) in *. apply KEY.
    + intro E. assert (In i0 []) as F; [|exact F]. rewrite <- E. apply in_zrange. destruct b; lia.
    + intro i. rewrite in_zrange. cbn [asked]. fold pre. destruct b; lia.
  - destruct (select_where_ok A (h_chunk h) (h_rows h) (fun i => i = j) (fun i => Z.eqb i j) C) as [P1 P2].
    { intro i. apply Z.eqb_eq. }
    split.
    + intro H. destruct (P1 H) as (out & -> & L). exists out. split; [reflexivity | exact L].
    + intro H. rewrite (P2 H). reflexivity.
  - destruct l as [|x l]; [destruct I0|]. apply KEY; [discriminate | intro; reflexivity].
  - destruct l as [|x l]; [destruct I0|]. apply KEY; [discriminate | intro; reflexivity].
Qed.
Print Assumptions history_by_label.

(** The same for the one-line table. *)
Theorem oneline_by_label : forall A (o : oneline A) k, 1 <= o_chunk o -> (exists i, asked (length (o_rows o)) k i) ->
  (has_label (asked (length (o_rows o)) k) (o_rows o) ->
     exists out, oneline_get o k = Ok (Rows out) /\ labelled (asked (length (o_rows o)) k) (o_rows o) out) /\
  (~ has_label (asked (length (o_rows o)) k) (o_rows o) -> oneline_get o k = Raise ValueError).
Proof.
  intros A o k C I0.
  pose proof (history_by_label A (History (o_rows o) [] (map (fun r => (fst r, 0)) (o_rows o)) (o_chunk o)) k C) as H.
  unfold h_systems in H. cbn [h_lengths h_rows] in H. rewrite map_length in H. specialize (H I0).
  destruct I0 as [i0 I0].
  destruct k as [a b|j|l|l|m|nm|nms|fl| ]; cbn [asked] in I0; try contradiction; cbn [oneline_get];
    cbn [history_get h_chunk h_rows] in H; unfold h_systems in H; cbn [h_lengths] in H; try rewrite map_length in H; try exact H.
  - destruct l; [destruct I0 | exact H].
  - destruct l; [destruct I0 | exact H].
Qed.
Print Assumptions oneline_by_label.

Definition ex_hist : table string :=
  [(4, "a"); (4, "b"); (7, "c"); (7, "d"); (7, "e"); (9, "f")]%Z.
Definition ex_h (c : nat) := open_history ex_hist ["event"] None c.
Example label_case :
  (forall c, In c [1; 2; 3; 5; 100] -> history_get (ex_h c) (KInts [9; 7; 7; 55]%Z) = Ok (Rows [(7, "c"); (7, "d"); (7, "e"); (9, "f")]%Z)
     /\ history_get (ex_h c) (KSlice (Some 4) (Some 7))%Z = Ok (Rows [(4, "a"); (4, "b")]%Z)
     /\ history_get (ex_h c) (KInt 5) = Raise ValueError)
  /\ has_label (asked 3 (KInts [9; 7; 7; 55]%Z)) ex_hist.
Proof.
  split.
  - intros c H. cbn in H. repeat (destruct H as [<-|H]; [repeat split; reflexivity|]). destruct H.
  - exists (9, "f")%Z. split; [cbn; tauto | left; reflexivity].
Qed.

(** Without arguments a slice starts at label 0: the slice [:] of a file whose binaries are
    numbered otherwise misses rows or raises. *)
Theorem history_full_slice_refuted :
  history_get (ex_h 10) (KSlice None None) = Raise ValueError
  /\ history_get (ex_h 10) (KSlice (Some 4) None)%Z = Ok (Rows [(4, "a"); (4, "b")]%Z).
Proof. split; reflexivity. Qed.

(** Column names: all rows, or ValueError for an unknown name. *)
Theorem history_columns : forall A (h : history A) names, 1 <= h_chunk h -> h_rows h <> [] ->
  (forall n, In n names -> In n (h_names h)) ->
  history_get h (KColumns names) = Ok (Columns names (h_rows h)) /\
  (forall name, In name (h_names h) -> history_get h (KColumn name) = Ok (Columns [name] (h_rows h))).
Proof.
  intros A h names C NE H.
  assert (select_range (h_chunk h) (h_rows h) 0 (length (h_rows h)) = Ok (h_rows h)) as ALL.
  { unfold select_range, window. rewrite Nat.sub_0_r. cbn [skipn]. rewrite firstn_all, pd_concat_chunks by exact C.
    destruct (h_rows h); [congruence | reflexivity]. }
  split.
  - cbn [history_get]. assert (forallb (fun n => inb String.eqb n (h_names h)) names = true) as ->.
    { apply forallb_forall. intros n I. destruct (inb_spec String.eqb_spec n (h_names h)); [reflexivity|]. exfalso. auto. }
    rewrite ALL. reflexivity.
  - intros name I. cbn [history_get]. destruct (inb_spec String.eqb_spec name (h_names h)); [|contradiction].
    rewrite ALL. reflexivity.
Qed.
Print Assumptions history_columns.
Theorem history_unknown_column : forall A (h : history A) names, 
  (exists n, In n names /\ ~ In n (h_names h)) ->
  history_get h (KColumns names) = Raise ValueError /\
  (forall name, ~ In name (h_names h) -> history_get h (KColumn name) = Raise ValueError).
Proof.
  intros A h names (n & I & N). split.
  - cbn [history_get]. destruct (forallb (fun n => inb String.eqb n (h_names h)) names) eqn:E; [|reflexivity].
    exfalso. rewrite forallb_forall in E. specialize (E n I). destruct (inb_spec String.eqb_spec n (h_names h)); [contradiction | discriminate].
  - intros name NI. cbn [history_get]. destruct (inb_spec String.eqb_spec name (h_names h)); [contradiction | reflexivity].
Qed.
Print Assumptions history_unknown_column.
Example columns_case : history_get (ex_h 4) (KColumns ["event"]) = Ok (Columns ["event"] ex_hist)
  /\ history_get (ex_h 4) (KColumn "time") = Raise ValueError.
Proof. split; reflexivity. Qed.

(** A boolean mask of the right length, exactly: correct for a single chunk (or chunks of one
    row); otherwise a ValueError unless the chunk size divides the number of rows, and then
    row [n] is selected by entry [n/c + n mod c] of the mask. *)
Theorem history_mask_exact : forall A (h : history A) m, 1 <= h_chunk h -> h_rows h <> [] ->
  length m = length (h_rows h) ->
  (length (h_rows h) <= h_chunk h \/ h_chunk h = 1 ->
     exists out, history_get h (KMask m) = Ok (Rows out) /\ masked (nth_error m) (h_rows h) out) /\
  (2 <= h_chunk h < length (h_rows h) -> length (h_rows h) mod h_chunk h <> 0 ->
     history_get h (KMask m) = Raise ValueError) /\
  (2 <= h_chunk h < length (h_rows h) -> length (h_rows h) mod h_chunk h = 0 ->
     exists out, history_get h (KMask m) = Ok (Rows out) /\
       masked (fun n => nth_error m (n / h_chunk h + n mod h_chunk h)) (h_rows h) out).
Proof.
  intros A h m C NE LM. set (c := h_chunk h) in *. set (t := h_rows h) in *.
  assert (m <> []) as MN by (intro E; rewrite E in LM; destruct t; [congruence | discriminate]).
  assert (history_get h (KMask m) = as_rows (rbind (mask_chunks A 0 c m (chunks c t)) pd_concat)) as EQ.
  { cbn [history_get]. destruct m; [congruence | reflexivity]. }
  assert (FIT : (forall j, j * c < length t -> min c (length m - j) = min c (length t - j * c)) ->
    exists out, history_get h (KMask m) = Ok (Rows out) /\ masked (fun n => nth_error m (n / c + n mod c)) t out).
  { intro F. destruct (mask_chunks_ok c m C t 0) as (out & E & EC & ON).
    { intros j J. cbn [Nat.add]. rewrite window_length. replace (j + c - j) with c by lia. apply F. exact J. }
    exists (concat out). split.
    - rewrite EQ, E. cbn [rbind]. unfold pd_concat. destruct out; [exfalso; apply ON; [exact NE | reflexivity] | reflexivity].
    - rewrite EC. cbn [Nat.mul]. apply used_masked; [exact LM | exact C]. }
  split; [|split].
  - intro ONE. destruct FIT as (out & E & M).
    { intros j J. rewrite LM. destruct ONE as [ONE|ONE]; [|rewrite ONE in *; lia].
      assert (j = 0) as -> by nia. rewrite Nat.mul_0_l. reflexivity. }
    exists out. split; [exact E|]. apply (masked_same _ _ _ _ _ (fun n N => eq_refl)) in M.
    eapply masked_same; [|exact M]. intros n N. cbn beta. f_equal.
    destruct ONE as [ONE|ONE].
    + rewrite Nat.div_small, Nat.mod_small by lia. reflexivity.
    + rewrite ONE, Nat.div_1_r, Nat.mod_1_r. lia.
  - intros [C2 CN] MOD. rewrite EQ, (mask_chunks_bad c m C t 0); [reflexivity|].
    pose proof (Nat.div_mod (length t) c ltac:(lia)) as DM.
    pose proof (Nat.mod_upper_bound (length t) c ltac:(lia)) as UB.
    exists (length t / c). split; [nia|]. cbn [Nat.add]. rewrite window_length.
    assert (1 <= length t / c) by (apply Nat.div_le_lower_bound; lia). nia.
  - intros [C2 CN] MOD. apply FIT. intros j J.
    pose proof (Nat.div_mod (length t) c ltac:(lia)) as DM. rewrite MOD in DM.
    assert (j < length t / c) by nia. assert (j * c + c <= length t) by nia. nia.
Qed.
Print Assumptions history_mask_exact.
Example mask_case : history_get (ex_h 6) (KMask [true; false; false; true; false; true]) = Ok (Rows [(4, "a"); (7, "d"); (9, "f")]%Z)
  /\ history_get (ex_h 4) (KMask [true; false; false; true; false; true]) = Raise ValueError.
Proof. split; reflexivity. Qed.
(** So a mask is not honoured for every chunk size: wrong rows, silently. *)
Theorem history_mask_refuted : exists out,
  history_get (ex_h 3) (KMask [false; true; false; false; false; false]) = Ok (Rows out) /\
  ~ masked (nth_error [false; true; false; false; false; false]) ex_hist out /\
  In (7, "d")%Z out.
Proof.
  exists [(4, "b"); (7, "d")]%Z. split; [reflexivity|]. split; [|cbn; tauto].
  intro M. assert (masked (nth_error [false; true; false; false; false; false]) ex_hist [(4, "b")]%Z) as M2.
  { exists [false; true; false; false; false; false]. split; [reflexivity|]. split; [reflexivity|]. intros n b E. exact E. }
  pose proof (masked_fun _ _ _ _ _ M M2). discriminate.
Qed.

(** The mask of the one-line table is translated to labels: right whenever the binaries are
    numbered distinctly, for every chunk size. *)
Theorem oneline_mask_exact : forall A (o : oneline A) m, 1 <= o_chunk o -> NoDup (keys (o_rows o)) ->
  length m = length (o_rows o) -> In true m ->
  exists out, oneline_get o (KMask m) = Ok (Rows out) /\ masked (nth_error m) (o_rows o) out.
Proof.
  intros A o m C ND LM IT. cbn [oneline_get]. unfold mask_indices, keys. rewrite map_length, LM, Nat.eqb_refl. cbn [rbind].
  set (t := o_rows o) in *.
  assert (filter (fun r => zin (fst r) (apply_mask m (map fst t))) t = apply_mask m t) as E.
  { clear IT C. unfold keys in ND. revert m LM. induction t as [|r t IH]; intros m LM; [destruct m; [reflexivity | discriminate]|].
    destruct m as [|b m]; [discriminate|]. cbn [map] in ND. inversion ND as [|? ? NI ND']; subst.
    assert (forall j, zin j (apply_mask m (map fst t)) = true -> In j (map fst t)) as SUB.
    { intros j J. apply zin_iff in J. clear -J. revert m J. induction t as [|q t IHt]; intros [|b m] J; cbn in J; try contradiction.
      destruct b; cbn in J |- *; [destruct J as [J|J]; [left; exact J | right; eapply IHt; exact J] | right; eapply IHt; exact J]. }
    assert (forall p : Z -> bool, (forall q, In q t -> p (fst q) = zin (fst q) (apply_mask m (map fst t))) ->
       filter (fun q => p (fst q)) t = apply_mask m t) as TL.
    { intros p P. rewrite <- (IH ND' m) by (cbn in LM; lia).
      apply filter_ext_in. exact P. }
    cbn [map apply_mask filter]. destruct b.
    - assert (zin (fst r) (fst r :: apply_mask m (map fst t)) = true) as -> by (apply zin_iff; left; reflexivity).
      f_equal. apply (TL (fun j => zin j (fst r :: apply_mask m (map fst t)))). intros q Q. unfold zin. cbn [inb].
      destruct (Z.eqb_spec (fst q) (fst r)) as [EQ|]; [|reflexivity]. exfalso. apply NI. rewrite <- EQ. apply in_map. exact Q.
    - assert (zin (fst r) (apply_mask m (map fst t)) = false) as ->.
      { destruct (zin (fst r) (apply_mask m (map fst t))) eqn:Z; [|reflexivity]. exfalso. apply NI. apply SUB. exact Z. }
      apply (TL (fun j => zin j (apply_mask m (map fst t)))). intros. reflexivity. }
  assert (apply_mask m (map fst t) <> []) as NN.
  { clear -LM IT. revert m LM IT. induction t as [|r t IH]; intros [|b m] LM IT; try discriminate; [destruct IT|].
    destruct IT as [->|IT]; [discriminate|]. cbn. destruct b; [discriminate|]. apply IH; [cbn in LM; lia | exact IT]. }
  exists (apply_mask m t). split.
  - unfold select_in, select_where. destruct (apply_mask m (map fst t)) as [|i l] eqn:EM; [congruence|].
    rewrite E, pd_concat_chunks by exact C. destruct (apply_mask m t) as [|r l'] eqn:ET; [|reflexivity].
    exfalso. assert (forall A B (f : A -> B) m l, apply_mask m (map f l) = map f (apply_mask m l)) as MM.
    { clear. induction m as [|b m IH]; intros [|x l]; try reflexivity. cbn. destruct b; cbn; rewrite IH; reflexivity. }
    rewrite MM, ET in EM. discriminate.
  - exists m. split; [exact LM|]. split; [apply apply_mask_keep|]. intros n b H. exact H.
Qed.
Print Assumptions oneline_mask_exact.
Definition ex_o (c : nat) := Oneline [(4, "a"); (9, "b"); (7, "c")]%Z ["state"] c.
Example oneline_mask_case : NoDup (keys (o_rows (ex_o 2))) /\
  oneline_get (ex_o 2) (KMask [false; true; true]) = Ok (Rows [(9, "b"); (7, "c")]%Z).
Proof. split; [|reflexivity]. repeat constructor; cbn; intuition discriminate. Qed.
(** A mask selecting nothing raises for the one-line table, while the history returns an
    empty frame. *)
Theorem oneline_empty_mask_refuted : oneline_get (ex_o 2) (KMask [false; false; false]) = Raise empty_query
  /\ history_get (ex_h 9) (KMask [false; false; false; false; false; false]) = Ok (Rows []).
Proof. split; reflexivity. Qed.

(** len(pop.history) is the number of rows when the lengths are counted from the file. *)
Theorem history_length : forall A (t : table A) names c,
  history_len (open_history t names None c) = length t /\
  (forall i n, In (i, n) (h_lengths (open_history t names None c)) <-> In i (keys t) /\ n = length (rows_of i t)).
Proof.
  intros A t names c. unfold history_len, open_history. cbn [h_lengths]. unfold group_lengths. split.
  - rewrite map_map. cbn [snd]. apply count_split.
    + apply ascending_nodup, sorted_unique_asc.
    + intros r I. apply sorted_unique_in. apply in_map. exact I.
  - intros i n. rewrite in_map_iff. unfold count_key, rows_of. split.
    + intros (j & E & I). pose proof (proj1 (sorted_unique_in j (keys t)) I) as I'. clear I.
      assert (j = i) as -> by congruence. split; [exact I'|]. rewrite map_length. congruence.
    + intros [I ->]. exists i. split; [rewrite map_length; reflexivity | apply sorted_unique_in; exact I].
Qed.
Print Assumptions history_length.
Example history_length_case : h_lengths (ex_h 3) = [(4%Z, 2); (7%Z, 3); (9%Z, 1)] /\ history_len (ex_h 3) = 6.
Proof. split; reflexivity. Qed.

(** tail(n) gives the last n rows for n >= 1, but tail(0) gives the whole table. *)
Theorem tail_last : forall A (t : table A) n, 1 <= n <= length t ->
  exists before, t = before ++ tail t n /\ length (tail t n) = n.
Proof.
  intros A t n [N1 N2]. destruct n as [|n]; [lia|]. exists (firstn (length t - S n) t). split.
  - symmetry. apply firstn_skipn.
  - unfold tail. rewrite skipn_length. lia.
Qed.
Print Assumptions tail_last.
Theorem tail_zero_refuted : tail ex_hist 0 = ex_hist /\ tail ex_hist 2 = [(7, "e"); (9, "f")]%Z.
Proof. split; reflexivity. Qed.
