(** C32: formation channels.  C52: transient populations do not depend on the chunk size. *)
From Coq Require Import String List ZArith Bool Lia PeanoNat.
From Verif Require Import PyBase PyList PyStr PyReplace TableModel TableSpec TableProofs ExportModel ExportProofs
  FlowChartModel BinaryModel ChanModel ChanSpec ChanProofs.
Import ListNotations.
Open Scope string_scope.
Open Scope nat_scope.
Open Scope list_scope.

(** ** Which files are written binary by binary *)
Fixpoint nondecreasing (l : list Z) : Prop :=
  match l with [] => True | x :: l' => (forall y, In y l' -> (x <= y)%Z) /\ nondecreasing l' end.

Lemma sorted_blocks : forall A l (t : table A), ascending l -> nondecreasing (keys t) ->
  (forall k, In k (keys t) -> In k l) -> t = flat_map (fun i => map (pair i) (rows_of i t)) l.
Proof.
  intros A. induction l as [|i l IH]; intros t AS ND F.
  - destruct t as [|r t]; [reflexivity|]. destruct (F (fst r)). left. reflexivity.
  - cbn [ascending] in AS. destruct AS as [A1 A2]. cbn [flat_map].
    set (t1 := filter (fun r => Z.eqb (fst r) i) t). set (t2 := filter (fun r => negb (Z.eqb (fst r) i)) t).
    assert (forall k, In k (keys t) -> (i <= k)%Z) as LO.
    { intros k K. destruct (F k K) as [<-|K']; [lia|]. apply A1 in K'. lia. }
    assert (t = t1 ++ t2) as E.
    { unfold t1, t2. clear IH F t1 t2. induction t as [|[k x] t IHt]; [reflexivity|]. cbn [keys map nondecreasing fst] in ND.
      destruct ND as [N1 N2]. cbn [filter fst]. destruct (Z.eqb_spec k i) as [-> |N]; cbn [negb].
      - cbn [app]. f_equal. apply IHt; [exact N2|]. intros. apply LO. right. assumption.
      - assert (forall r, In r t -> Z.eqb (fst r) i = false) as NO.
        { intros r R. apply Z.eqb_neq. assert (In (fst r) (keys t)) as RK by (apply in_map; exact R).
          specialize (N1 _ RK). specialize (LO k (or_introl eq_refl)). lia. }
        assert (filter (fun r => Z.eqb (fst r) i) t = []) as ->.
        { clear -NO. induction t as [|r t IH]; [reflexivity|]. cbn [filter]. rewrite NO by (left; reflexivity).
          apply IH. intros. apply NO. right. assumption. }
        cbn [app]. f_equal. clear -NO. induction t as [|r t IH]; [reflexivity|]. cbn [filter]. rewrite NO by (left; reflexivity).
        cbn [negb]. f_equal. apply IH. intros. apply NO. right. assumption. }
    rewrite E at 1. f_equal.
    + unfold rows_of. fold t1. rewrite map_map. rewrite <- (map_id t1) at 1. apply map_ext_in.
      intros [k x] R. apply filter_In in R. destruct R as [_ R]. apply Z.eqb_eq in R. cbn in *. subst k. reflexivity.
    + assert (forall j, In j l -> rows_of j t = rows_of j t2) as RO.
      { intros j J. apply A1 in J. rewrite E. rewrite rows_of_app. rewrite rows_of_none; [reflexivity|].
        intro K. apply in_map_iff in K. destruct K as (r & K1 & K2). apply filter_In in K2. destruct K2 as [_ K2].
        apply Z.eqb_eq in K2. lia. }
      transitivity (flat_map (fun i0 => map (pair i0) (rows_of i0 t2)) l).
      * apply IH; [exact A2 | |].
        -- unfold t2. clear -ND. induction t as [|r t IHt]; [exact I|]. cbn [keys map nondecreasing] in ND. destruct ND as [N1 N2].
           cbn [filter]. destruct (negb _); [|apply IHt; exact N2]. cbn [keys map nondecreasing]. split; [|apply IHt; exact N2].
           intros y Y. apply N1. apply in_map_iff in Y. destruct Y as (q & <- & Y). apply filter_In in Y. apply in_map. tauto.
        -- intros k K. apply in_map_iff in K. destruct K as (r & <- & K). apply filter_In in K. destruct K as [K1 K2].
           destruct (F (fst r) (in_map fst _ _ K1)) as [EQ|]; [rewrite EQ, Z.eqb_refl in K2; discriminate | assumption].
      * clear -RO. induction l as [|j l IHl]; [reflexivity|]. cbn [flat_map]. rewrite (RO j) by (left; reflexivity).
        f_equal. apply IHl. intros. apply RO. right. assumption.
Qed.

Lemma flat_map_map : forall A B C (f : B -> list C) (g : A -> B) l, flat_map f (map g l) = flat_map (fun x => f (g x)) l.
Proof. intros. induction l as [|x l IH]; [reflexivity|]. cbn [map flat_map]. rewrite IH. reflexivity. Qed.

(** A file sorted by index, opened without stored lengths, is written binary by binary. *)
Theorem sorted_file_written : forall H O (t : table H) names c (ones : table O),
  nondecreasing (keys t) -> ascending (keys ones) -> (forall i, In i (keys ones) <-> In i (keys t)) ->
  exists bins : binaries H O, written bins t (h_lengths (open_history t names None c)) ones /\
    (forall i o, In (i, o) ones -> In (i, (rows_of i t, o)) bins) /\ map fst bins = keys ones.
Proof.
  intros H O t names c ones N1 N2 F.
  exists (map (fun r => (fst r, (rows_of (fst r) t, snd r))) ones).
  assert (map fst (map (fun r : Z * O => (fst r, (rows_of (fst r) t, snd r))) ones) = keys ones) as K.
  { rewrite map_map. reflexivity. }
  assert (sorted_unique (keys t) = keys ones) as SU.
  { apply ascending_unique; [apply sorted_unique_asc | exact N2|]. intro i. rewrite sorted_unique_in, F. reflexivity. }
  split; [|split; [|exact K]].
  - unfold written. rewrite K. split; [apply ascending_nodup; exact N2|]. split; [|split; [|split]].
    + intros b B. apply in_map_iff in B. destruct B as (r & <- & B). cbn [fst snd].
      assert (In (fst r) (keys t)) as I by (apply F; apply in_map; exact B).
      apply in_map_iff in I. destruct I as (q & Q1 & Q2). intro E.
      assert (In (snd q) (rows_of (fst r) t)) as W.
      { unfold rows_of. apply in_map. apply filter_In. split; [exact Q2|]. apply Z.eqb_eq. exact Q1. }
      rewrite E in W. destruct W.
    + rewrite flat_map_map. cbn [fst snd]. rewrite (sorted_blocks H (keys ones) t N2 N1) at 1 by (intros; apply F; assumption).
      unfold keys. rewrite flat_map_map. reflexivity.
    + cbn [open_history h_lengths]. unfold group_lengths. rewrite SU. unfold keys. rewrite !map_map.
      apply map_ext. intro r. cbn [fst snd]. f_equal. unfold count_key, rows_of. rewrite map_length. reflexivity.
    + rewrite map_map. cbn [fst snd]. rewrite <- (map_id ones) at 1. apply map_ext. intros []; reflexivity.
  - intros i o I. apply in_map_iff. exists (i, o). split; [reflexivity | exact I].
Qed.
Print Assumptions sorted_file_written.

(** ** Formation channels *)
(** For events of the flow chart every binary gets the words of its own complete history,
    cut after 100 characters, for any chunk sizes. *)
Theorem channels_exact : forall use_mt column c (h : history (option string)) (o : oneline one_row) bins,
  1 <= c -> 1 <= h_chunk h -> 1 <= o_chunk o -> (use_mt = true -> column = true) ->
  written bins (h_rows h) (h_lengths h) (o_rows o) -> bins <> [] ->
  (forall i evs cls mt, In (i, (evs, (cls, mt))) bins -> known_class cls /\ present evs <> [] /\
     forall e, In (Some e) evs -> In e event_words) ->
  calculate_formation_channels use_mt column c h o =
  (Some (map (fun b => match b with (i, (evs, (cls, mt))) =>
      let words := debug_words (present evs) cls in
      (i, (Some (first100 (text words)),
           Some (first100 (text (channel_words words
             (use_mt && match mt with Some m => String.eqb m "Stable contact phase" | None => false end))))))
      end) bins), None).
Proof.
  intros use_mt column c h o bins C1 HC OC COL HW NE F.
  assert (forall b, In b bins -> known_class (fst (snd (snd b))) /\ present (fst (snd b)) <> []) as F'.
  { intros [i [evs [cls mt]]] I. destruct (F _ _ _ _ I) as (K & P & _). split; assumption. }
  unfold calculate_formation_channels. rewrite (windows_run _ _ _ _ _ c h o bins) by assumption.
  destruct HW as (ND & _).
  destruct (run_local _ _ _ (fun _ sel ones events => channel_chunk use_mt column sel ones events)
              (fun b => [chan_row_of use_mt b]) c (chunks c bins) 0 None) as (res & R & CO & NO).
  - intros k p K. assert (In p (chunks c bins)) as I by (apply nth_error_In in K; exact K).
    assert (exists a b, bins = a ++ p ++ b) as (a & b & E).
    { apply in_split in I. destruct I as (l1 & l2 & E). exists (concat l1), (concat l2).
      rewrite <- (concat_chunks _ c bins C1), E, concat_app. reflexivity. }
    rewrite chunk_ok; [|exact COL| |].
    + reflexivity.
    + rewrite E in ND. rewrite !map_app in ND. apply NoDup_mid in ND. exact ND.
    + intros x X. apply F'. rewrite E. apply in_or_app. right. apply in_or_app. left. exact X.
  - rewrite R. f_equal. rewrite concat_chunks in CO, NO by exact C1.
    assert (flat_map (fun b => [chan_row_of use_mt b]) bins = map (chan_row_of use_mt) bins) as FM.
    { reflexivity. }
    rewrite FM in CO, NO. destruct res as [t|].
    2:{ destruct (proj1 NO eq_refl) as [_ Z]. destruct bins; [congruence | discriminate]. }
    f_equal. cbn [contents app] in CO. rewrite CO. apply map_ext_in. intros [i [evs [cls mt]]] I.
    destruct (F _ _ _ _ I) as (K & P & V). unfold chan_row_of. cbn [fst snd]. rewrite chan_of_words; [reflexivity | exact P|].
    intros e EI. apply V. unfold present in EI. apply in_flat_map in EI. destruct EI as ([x|] & X & Y); [|destruct Y].
    destruct Y as [<-|[]]. exact X.
Qed.
Print Assumptions channels_exact.

(** The words above are the events of the flow chart. *)
Theorem event_words_complete : forall e : event, (forall n, e <> EOther n) -> e <> EvNone ->
  exists w, event_val e = VStr w /\ In w event_words.
Proof.
  intros e N1 N2. destruct e; try (exfalso; apply N2; reflexivity); try (exfalso; eapply N1; reflexivity);
    (eexists; split; [reflexivity | vm_compute; tauto]).
Qed.

(** For arbitrary events the row of a binary still depends only on the binary itself. *)
Theorem channels_local : exists row : bool -> list string -> option string -> option string -> chan_row,
  forall use_mt column c (h : history (option string)) (o : oneline one_row) bins,
  1 <= c -> 1 <= h_chunk h -> 1 <= o_chunk o -> (use_mt = true -> column = true) ->
  written bins (h_rows h) (h_lengths h) (o_rows o) -> bins <> [] ->
  (forall i evs cls mt, In (i, (evs, (cls, mt))) bins -> known_class cls /\ present evs <> []) ->
  calculate_formation_channels use_mt column c h o =
  (Some (map (fun b => (fst b, row use_mt (present (fst (snd b))) (fst (snd (snd b))) (snd (snd (snd b))))) bins), None).
Proof.
  exists chan_of. intros use_mt column c h o bins C1 HC OC COL HW NE F.
  assert (forall b, In b bins -> known_class (fst (snd (snd b))) /\ present (fst (snd b)) <> []) as F'.
  { intros [i [evs [cls mt]]] I. exact (F _ _ _ _ I). }
  unfold calculate_formation_channels. rewrite (windows_run _ _ _ _ _ c h o bins) by assumption.
  destruct HW as (ND & _).
  destruct (run_local _ _ _ (fun _ sel ones events => channel_chunk use_mt column sel ones events)
              (fun b => [chan_row_of use_mt b]) c (chunks c bins) 0 None) as (res & R & CO & NO).
  - intros k p K. assert (In p (chunks c bins)) as I by (apply nth_error_In in K; exact K).
    assert (exists a b, bins = a ++ p ++ b) as (a & b & E).
    { apply in_split in I. destruct I as (l1 & l2 & E). exists (concat l1), (concat l2).
      rewrite <- (concat_chunks _ c bins C1), E, concat_app. reflexivity. }
    rewrite chunk_ok; [|exact COL| |].
    + reflexivity.
    + rewrite E in ND. rewrite !map_app in ND. apply NoDup_mid in ND. exact ND.
    + intros x X. apply F'. rewrite E. apply in_or_app. right. apply in_or_app. left. exact X.
  - rewrite R. f_equal. rewrite concat_chunks in CO, NO by exact C1.
    assert (flat_map (fun b => [chan_row_of use_mt b]) bins = map (chan_row_of use_mt) bins) as FM.
    { reflexivity. }
    rewrite FM in CO, NO. destruct res as [t|].
    2:{ destruct (proj1 NO eq_refl) as [_ Z]. destruct bins; [congruence | discriminate]. }
    f_equal. cbn [contents app] in CO. rewrite CO. reflexivity.
Qed.
Print Assumptions channels_local.

(** A population of three binaries. *)
Definition ch_bins : binaries (option string) one_row :=
  [ (3%Z, ([Some "ZAMS"; None; Some "redirect_from_CO_HeMS_RLO"; Some "oRLO1"; Some "END"], (Some "stable_MT", Some "Stable contact phase")));
    (5%Z, ([Some "ZAMS"; Some "oCE1"; Some "END"], (Some "unstable_MT", None)));
    (8%Z, ([Some "ZAMS"; Some "redirect_from_ZAMS"; Some "CC1"; Some "CO_contact"; Some "END"], (None, None))) ].
Definition ch_hist (c : nat) (bins : binaries (option string) one_row) : history (option string) :=
  open_history (hist_of bins) ["event"] None c.
Definition ch_one (c : nat) (bins : binaries (option string) one_row) : oneline one_row := Oneline (ones_of bins) [] c.

Example channels_case :
  written ch_bins (h_rows (ch_hist 2 ch_bins)) (h_lengths (ch_hist 2 ch_bins)) (o_rows (ch_one 2 ch_bins)) /\
  (forall c, In c [1; 2; 3; 50] -> calculate_formation_channels true true c (ch_hist 2 ch_bins) (ch_one 2 ch_bins) =
   (Some [ (3%Z, (Some "ZAMS_oRLO1_redirect_from_CO_HeMS_RLO_oRLO1_END", Some "ZAMS_oRLO1-contact_oRLO1-contact_END"));
           (5%Z, (Some "ZAMS_oCE1_END", Some "ZAMS_oCE1_END"));
           (8%Z, (Some "ZAMS_redirect_from_ZAMS_CC1_CO_contact_END", Some "ZAMS_CC1_END")) ], None)).
Proof.
  split.
  - split; [repeat constructor; cbn; intuition discriminate|]. split; [|repeat split; vm_compute; reflexivity].
    intros b [<-|[<-|[<-|[]]]]; discriminate.
  - intros c [<-|[<-|[<-|[<-|[]]]]]; vm_compute; reflexivity.
Qed.

(** Files merged in arbitrary order: the lengths come sorted by index, the rows do not, and the
    windows no longer fit.  Binary 0 gets no channel at all, binary 1 the beginning of its
    history; with one chunk both are right. *)
Theorem channels_unsorted_refuted :
  let bins : binaries (option string) one_row :=
    [ (2%Z, ([Some "ZAMS"; Some "END"], (None, None)));
      (1%Z, ([Some "ZAMS"; Some "CC1"; Some "END"], (None, None)));
      (0%Z, ([Some "ZAMS"], (None, None))); (3%Z, ([Some "ZAMS"], (None, None))) ] in
  calculate_formation_channels false false 2 (ch_hist 9 bins) (ch_one 9 bins) =
    (Some [ (0%Z, (None, None)); (1%Z, (Some "ZAMS_CC1", Some "ZAMS_CC1"));
            (2%Z, (None, None)); (3%Z, (Some "ZAMS", Some "ZAMS")) ], None) /\
  calculate_formation_channels false false 4 (ch_hist 9 bins) (ch_one 9 bins) =
    (Some [ (0%Z, (Some "ZAMS", Some "ZAMS")); (1%Z, (Some "ZAMS_CC1_END", Some "ZAMS_CC1_END"));
            (2%Z, (Some "ZAMS_END", Some "ZAMS_END")); (3%Z, (Some "ZAMS", Some "ZAMS")) ], None).
Proof. vm_compute. split; reflexivity. Qed.

(** Long histories are cut: binaries with different events get the same channel. *)
Theorem channels_cut_refuted :
  let long last := Some "ZAMS" :: repeat (Some "MaxTime_exceeded") 6 ++ [Some last] in
  let bins : binaries (option string) one_row := [ (0%Z, (long "oMerging1", (None, None))); (1%Z, (long "oMerging2", (None, None))) ] in
  exists ch, calculate_formation_channels false false 2 (ch_hist 9 bins) (ch_one 9 bins) =
    (Some [ (0%Z, (Some ch, Some ch)); (1%Z, (Some ch, Some ch)) ], None).
Proof. cbv zeta. eexists. vm_compute. reflexivity. Qed.

(** An unknown class or a missing column stops the calculation; what was written for earlier
    chunks stays, and the channels of an earlier call are gone. *)
Theorem channels_unknown_class_refuted :
  let bins : binaries (option string) one_row :=
    [ (0%Z, ([Some "ZAMS"], (Some "no_MT", None))); (1%Z, ([Some "ZAMS"], (Some "not_converged", None))) ] in
  calculate_formation_channels false false 1 (ch_hist 9 bins) (ch_one 9 bins) = (Some [(0%Z, (Some "ZAMS", Some "ZAMS"))], Some KeyError) /\
  calculate_formation_channels true false 1 (ch_hist 9 bins) (ch_one 9 bins) = (None, Some ValueError).
Proof. vm_compute. split; reflexivity. Qed.

(** ** Transient populations (C52) *)
(** If the user's function treats every binary on its own, the transient table consists of the
    rows of all binaries in order, for every chunk size; without rows there is no table. *)
Theorem transients_exact : forall H O C T (func : table H -> table O -> option (table C) -> result (frame T))
    (one : Z -> list H -> O -> option C -> list T) columns channels c h o bins,
  1 <= c -> 1 <= h_chunk h -> 1 <= o_chunk o ->
  written bins (h_rows h) (h_lengths h) (o_rows o) ->
  (forall t, channels = Some t -> keys t = map fst bins) ->
  In "time" columns -> In "metallicity" columns -> NoDup columns ->
  (* the function works binary by binary *)
  (forall part chans, NoDup (map fst part) -> (forall t, chans = Some t -> keys t = map fst part) ->
     func (hist_of part) (ones_of part) chans =
     Ok (Frame columns (flat_map (fun b => map (pair (fst b)) (one (fst b) (fst (snd b)) (snd (snd b))
            (match chans with Some t => match rows_of (fst b) t with x :: _ => Some x | [] => None end | None => None end))) part))) ->
  exists res, create_transient_population func true channels c h o = (res, None) /\
    contents res = flat_map (fun b => map (pair (fst b)) (one (fst b) (fst (snd b)) (snd (snd b))
       (match channels with Some t => match rows_of (fst b) t with x :: _ => Some x | [] => None end | None => None end))) bins /\
    (res = None <-> contents res = []).
Proof.
  intros H O C T func one columns channels c h o bins C1 HC OC HW CH TC MC ND FU.
  unfold create_transient_population. cbn [negb].
  rewrite (windows_run _ _ _ _ _ c h o bins) by assumption. destruct HW as (NDB & _).
  set (g := fun b : Z * (list H * O) => map (pair (fst b)) (one (fst b) (fst (snd b)) (snd (snd b))
     (match channels with Some t => match rows_of (fst b) t with x :: _ => Some x | [] => None end | None => None end))).
  destruct (run_local _ _ _ (fun i (_ : list Z) ones hist => transient_chunk H O C T func channels c i ones hist) g c (chunks c bins) 0 None)
    as (res & R & CO & NO).
  - intros k p K. cbn [Nat.add].
    assert (forall (l : binaries H O) k p, nth_error (chunks c l) k = Some p ->
       exists a b, l = a ++ p ++ b /\ length a = k * c /\ length p <= c /\ (length p < c -> b = [])) as POS.
    { clear -C1. intro l. induction l as [|l NE IH] using (pieces_ind _ c C1); intros k p K; [destruct k; discriminate|].
      rewrite chunks_step in K by assumption. destruct k as [|k].
      - cbn in K. assert (p = firstn c l) as -> by congruence. exists [], (skipn c l). cbn [app length].
        split; [symmetry; apply firstn_skipn|]. split; [lia|]. split; [rewrite firstn_length; lia|].
        rewrite firstn_length. intro LL. apply skipn_all2. lia.
      - cbn [nth_error] in K. destruct (IH k p K) as (a & b & E & LA & LP & B). exists (firstn c l ++ a), b.
        split; [rewrite <- app_assoc, <- E; symmetry; apply firstn_skipn|].
        split; [|split; [exact LP | exact B]]. rewrite app_length, LA, firstn_length.
        assert (c <= length l); [|cbn [Nat.mul]; lia].
        destruct (Nat.le_gt_cases c (length l)) as [|LT]; [assumption|]. rewrite skipn_all2 in E by lia.
        assert (p <> []) as PN by (apply (chunks_nonempty _ c (skipn c l)); [exact C1 | apply nth_error_In in K; exact K]).
        destruct a; [destruct p; [congruence | discriminate] | discriminate]. }
    destruct (POS _ _ _ K) as (a & b & E & LA & LP & LB).
    unfold transient_chunk.
    assert (forall t, channels = Some t -> keys (window (k * c) (k * c + c) t) = map fst p) as CW.
    { intros t Et. specialize (CH t Et).
      assert (keys (window (k * c) (k * c + c) t) = window (k * c) (k * c + c) (keys t)) as KW.
      { unfold keys, window. rewrite skipn_map, firstn_map. reflexivity. }
      rewrite KW, CH, E, map_app. rewrite window_prefix by (rewrite map_length; exact LA).
      rewrite map_app, firstn_app, map_length.
      destruct (Nat.eq_dec (length p) c) as [EC|NC].
      - rewrite <- EC at 1. rewrite <- (map_length fst p) at 1. rewrite firstn_all. rewrite EC, Nat.sub_diag, firstn_O, app_nil_r. reflexivity.
      - rewrite LB by lia. cbn [map]. rewrite firstn_nil, app_nil_r. apply firstn_all2. rewrite map_length. exact LP. }
    rewrite (FU p (option_map (window (k * c) (k * c + c)) channels)).
    + cbn [rbind f_columns f_rows].
      destruct (inb_spec String.eqb_spec "time" columns); [|contradiction].
      destruct (inb_spec String.eqb_spec "metallicity" columns); [|contradiction]. cbn [negb].
      assert (no_duplicates columns = true) as ->.
      { clear -ND. induction columns as [|x l IH]; [reflexivity|]. inversion ND as [|? ? N ND']; subst. cbn [no_duplicates].
        destruct (inb_spec String.eqb_spec x l); [contradiction|]. apply IH. exact ND'. }
      cbn [negb]. f_equal.
      assert (forall l : binaries H O, (forall x, In x l -> In x p) ->
        flat_map (fun b0 => map (pair (fst b0)) (one (fst b0) (fst (snd b0)) (snd (snd b0))
          match option_map (window (k * c) (k * c + c)) channels with
          | Some t => match rows_of (fst b0) t with [] => None | x :: _ => Some x end | None => None end)) l = flat_map g l) as GO.
      { induction l as [|x l IH]; intro S1; [reflexivity|]. cbn [flat_map]. rewrite IH by (intros; apply S1; right; assumption).
        f_equal. unfold g. destruct channels as [t|]; [|reflexivity]. cbn [option_map].
        assert (rows_of (fst x) (window (k * c) (k * c + c) t) = rows_of (fst x) t) as ->; [|reflexivity].
        specialize (CH t eq_refl). specialize (CW t eq_refl).
        assert (exists t1 t3, t = t1 ++ window (k * c) (k * c + c) t ++ t3) as (t1 & t3 & Et).
        { exists (firstn (k * c) t), (skipn c (skipn (k * c) t)). unfold window. replace (k * c + c - k * c) with c by lia.
          rewrite (firstn_skipn c), firstn_skipn. reflexivity. }
        assert (NoDup (keys t)) as NDT by (rewrite CH; exact NDB).
        assert (In (fst x) (keys (window (k * c) (k * c + c) t))) as IX by (rewrite CW; apply in_map; apply S1; left; reflexivity).
        revert NDT IX. rewrite Et at 1 4. unfold keys. rewrite !map_app. intros NDT IX.
        rewrite !rows_of_app. rewrite (rows_of_none _ _ t1), (rows_of_none _ _ t3); [rewrite app_nil_r; reflexivity| |].
        - intro I3. rewrite app_assoc in NDT.
          assert (forall (u v : list Z) y, NoDup (u ++ v) -> In y u -> In y v -> False) as ND2.
          { clear. induction u as [|z u IHu]; intros v y N I1 I2; [destruct I1|]. cbn [app] in N. apply NoDup_cons_iff in N. destruct N as [N1 N2].
            destruct I1 as [-> |I1]; [apply N1; apply in_or_app; right; exact I2 | apply (IHu v y); assumption]. }
          apply (ND2 _ _ (fst x) NDT); [apply in_or_app; right; exact IX | exact I3].
        - intro I1.
          assert (forall (u v : list Z) y, NoDup (u ++ v) -> In y u -> In y v -> False) as ND2.
          { clear. induction u as [|z u IHu]; intros v y N J1 J2; [destruct J1|]. cbn [app] in N. apply NoDup_cons_iff in N. destruct N as [N1 N2].
            destruct J1 as [-> |J1]; [apply N1; apply in_or_app; right; exact J2 | apply (IHu v y); assumption]. }
          apply (ND2 _ _ (fst x) NDT I1). apply in_or_app. left. exact IX. }
      apply GO. auto.
    + rewrite E in NDB. rewrite !map_app in NDB. apply NoDup_mid in NDB. exact NDB.
    + intros t Et. destruct channels as [t0|]; [|discriminate]. cbn [option_map] in Et.
      assert (t = window (k * c) (k * c + c) t0) as -> by congruence. apply CW. reflexivity.
  - rewrite concat_chunks in CO, NO by exact C1. exists res. split; [exact R|]. cbn [contents app] in CO. split; [exact CO|].
    rewrite NO, CO. tauto.
Qed.
Print Assumptions transients_exact.

(** A function that counts the rows of every binary with at least four of them. *)
Definition count_rows (hist : table (option string)) (ones : table one_row) (_ : option (table chan_row)) : result (frame nat) :=
  Ok (Frame ["time"; "metallicity"] (flat_map (fun r => let n := length (rows_of (fst r) hist) in if 4 <=? n then [(fst r, n)] else []) ones)).
Example transients_case :
  (forall part chans, NoDup (map fst part) -> (forall t, chans = Some t -> keys t = map fst part) ->
     count_rows (hist_of part) (ones_of part) chans =
     Ok (Frame ["time"; "metallicity"] (flat_map (fun b => map (pair (fst b))
       (let n := length (fst (snd b)) in if 4 <=? n then [n] else [])) part))) /\
  (forall c, In c [1; 2; 3; 7] -> create_transient_population count_rows true None c (ch_hist 2 ch_bins) (ch_one 2 ch_bins)
     = (Some [(3%Z, 5); (8%Z, 5)], None)).
Proof.
  split; [|intros c [<-|[<-|[<-|[<-|[]]]]]; vm_compute; reflexivity].
  intros part chans ND _. unfold count_rows. do 2 f_equal. unfold ones_of. rewrite flat_map_map. cbn [fst].
  assert (forall l, (forall b, In b l -> In b part) ->
    flat_map (fun x => if 4 <=? length (rows_of (fst x) (hist_of part)) then [(fst x, length (rows_of (fst x) (hist_of part)))] else []) l
    = flat_map (fun b => map (pair (fst b)) (if 4 <=? length (fst (snd b)) then [length (fst (snd b))] else [])) l) as G.
  { induction l as [|b l IH]; intro S1; [reflexivity|]. cbn [flat_map]. rewrite IH by (intros; apply S1; right; assumption).
    f_equal. assert (rows_of (fst b) (hist_of part) = fst (snd b)) as ->.
    { unfold rows_of. rewrite filter_hist; [|exact ND | apply S1; left; reflexivity]. rewrite map_map. apply map_id. }
    destruct (4 <=? length (fst (snd b))); reflexivity. }
  apply G. auto.
Qed.

(** Other functions see the pieces: one that returns the number of binaries it was given. *)
Theorem transients_chunks_refuted :
  let count (hist : table (option string)) (ones : table one_row) (_ : option (table chan_row)) : result (frame nat) :=
    Ok (Frame ["time"; "metallicity"] [(0%Z, length ones)]) in
  create_transient_population count true None 2 (ch_hist 2 ch_bins) (ch_one 2 ch_bins) = (Some [(0%Z, 2); (0%Z, 1)], None) /\
  create_transient_population count true None 3 (ch_hist 2 ch_bins) (ch_one 2 ch_bins) = (Some [(0%Z, 3)], None).
Proof. vm_compute. split; reflexivity. Qed.

(** Missing or repeated columns are refused. *)
Theorem transients_refused : forall H O C T (func : table H -> table O -> option (table C) -> result (frame T)) channels c h o bins columns rows,
  1 <= c -> 1 <= h_chunk h -> 1 <= o_chunk o -> written bins (h_rows h) (h_lengths h) (o_rows o) -> bins <> [] ->
  (forall x y z, func x y z = Ok (Frame columns rows)) ->
  ~ In "time" columns \/ ~ In "metallicity" columns \/ ~ NoDup columns ->
  create_transient_population func true channels c h o = (None, Some ValueError).
Proof.
  intros H O C T func channels c h o bins columns rows C1 HC OC HW NE FU BAD.
  unfold create_transient_population. cbn [negb]. rewrite (windows_run _ _ _ _ _ c h o bins) by assumption.
  rewrite chunks_step by assumption. cbn [run]. unfold transient_chunk. rewrite FU. cbn [rbind f_columns].
  destruct (inb_spec String.eqb_spec "time" columns); [|reflexivity].
  destruct (inb_spec String.eqb_spec "metallicity" columns); [|reflexivity]. cbn [negb].
  assert (no_duplicates columns = true -> NoDup columns) as ND.
  { clear. induction columns as [|x l IH]; intro E; [constructor|]. cbn [no_duplicates] in E. apply andb_true_iff in E. destruct E as [E1 E2].
    constructor; [|apply IH; exact E2]. destruct (inb_spec String.eqb_spec x l); [discriminate | assumption]. }
  destruct (no_duplicates columns); [|reflexivity]. specialize (ND eq_refl). tauto.
Qed.
Print Assumptions transients_refused.
