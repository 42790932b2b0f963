(** Proofs about the windows of a population file and about formation channels. *)
From Coq Require Import String List ZArith Bool Lia PeanoNat.
From Verif Require Import PyBase PyList PyStr PyReplace TableModel TableSpec TableProofs ExportModel ExportProofs
  ChanModel ChanSpec.
Import ListNotations.
Open Scope string_scope.
Open Scope nat_scope.
Open Scope list_scope.

Section Windows.
  Variables H O W : Type.
  Variable body : nat -> list Z -> table O -> table H -> result W.
  Variable write : W -> option W -> option W.

  Definition hist_of (bins : binaries H O) : table H := flat_map (fun b => map (pair (fst b)) (fst (snd b))) bins.
  Definition ones_of (bins : binaries H O) : table O := map (fun b => (fst b, snd (snd b))) bins.
  Definition lens_of (bins : binaries H O) : table nat := map (fun b => (fst b, length (fst (snd b)))) bins.

  Fixpoint run (c i : nat) (pieces : list (binaries H O)) (out : option W) : option W * option exn :=
    match pieces with
    | [] => (out, None)
    | p :: ps => match body i (map fst p) (ones_of p) (hist_of p) with
                 | Raise e => (out, Some e)
                 | Ok w => run c (i + c) ps (write w out)
                 end
    end.

  Lemma window_prefix : forall A n (a b : list A), length a = n -> forall k, window n (n + k) (a ++ b) = firstn k b.
  Proof using Type.
    intros A n a b <- k. unfold window. replace (length a + k - length a) with k by lia. f_equal.
    clear. induction a; [reflexivity | assumption].
  Qed.

  Lemma hist_length : forall bins, length (hist_of bins) = list_sum (map snd (lens_of bins)).
  Proof using Type.
    induction bins as [|b bins IH]; [reflexivity|]. unfold hist_of, lens_of in *. cbn [flat_map map].
    change (list_sum (snd (fst b, length (fst (snd b))) :: map snd (map (fun b0 => (fst b0, length (fst (snd b0)))) bins)))
      with (length (fst (snd b)) + list_sum (map snd (map (fun b0 : Z * (list H * O) => (fst b0, length (fst (snd b0)))) bins))).
    rewrite app_length, map_length, IH. reflexivity.
  Qed.
  Lemma hist_app : forall a b, hist_of (a ++ b) = hist_of a ++ hist_of b.
  Proof using Type. intros. apply flat_map_app. Qed.
  Lemma hist_nonempty : forall bins, bins <> [] -> (forall b, In b bins -> fst (snd b) <> []) -> hist_of bins <> [].
  Proof using Type.
    intros [|b bins] N F; [congruence|]. specialize (F b (or_introl eq_refl)). unfold hist_of. cbn [flat_map].
    destruct (fst (snd b)); [congruence | discriminate].
  Qed.
  Lemma select_range_ok : forall A c (t : table A) a b, 1 <= c -> window a b t <> [] -> select_range c t a b = Ok (window a b t).
  Proof using Type.
    intros A c t a b L N. unfold select_range. rewrite pd_concat_chunks by exact L.
    destruct (window a b t); [congruence | reflexivity].
  Qed.

  Lemma each_window_run : forall c (h : history H) (o : oneline O) bins, 1 <= c -> 1 <= h_chunk h -> 1 <= o_chunk o ->
    written bins (h_rows h) (h_lengths h) (o_rows o) ->
    forall rest fuel done out, bins = done ++ rest -> length rest <= fuel ->
    each_window body write fuel c (length done) (length (hist_of done)) h o out = run c (length done) (chunks c rest) out.
  Proof using Type.
    intros c h o bins C1 HC OC (ND & NE & HR & HL & HO).
    intros rest. induction rest as [|rest RN IH] using (pieces_ind _ c C1); intros fuel done out E F.
    - rewrite app_nil_r in E. subst done. rewrite chunks_nil. cbn [run].
      destruct fuel; cbn [each_window]; rewrite HL, map_length, Nat.leb_refl; reflexivity.
    - destruct fuel as [|fuel]; [destruct rest; [congruence | cbn in F; lia]|].
      rewrite chunks_step by assumption. cbn [run each_window].
      assert (length (h_lengths h) <=? length done = false) as L.
      { apply Nat.leb_gt. rewrite HL, map_length, E, app_length. destruct rest; [congruence|]. cbn. lia. }
      rewrite L.
      set (p := firstn c rest).
      assert (rest = p ++ skipn c rest) as ER by (symmetry; apply firstn_skipn).
      assert (p <> []) as PN by (unfold p; destruct rest; [congruence|]; destruct c; [lia | discriminate]).
      assert (window (length done) (length done + c) (h_lengths h) = lens_of p) as W1.
      { rewrite HL, E, map_app. rewrite window_prefix by (apply map_length). rewrite firstn_map. reflexivity. }
      assert (window (length done) (length done + c) (keys (h_lengths h)) = map fst p) as W2.
      { unfold keys. rewrite HL, map_map. cbn [fst]. rewrite E, map_app.
        rewrite window_prefix by (apply map_length). rewrite firstn_map. reflexivity. }
      assert (window (length done) (length done + c) (o_rows o) = ones_of p) as W3.
      { rewrite HO, E, map_app. rewrite window_prefix by (apply map_length). rewrite firstn_map. reflexivity. }
      assert (window (length (hist_of done)) (length (hist_of done) + list_sum (map snd (lens_of p))) (h_rows h) = hist_of p) as W4.
      { rewrite HR, E. change (flat_map (fun b : Z * (list H * O) => map (pair (fst b)) (fst (snd b))) (done ++ rest)) with (hist_of (done ++ rest)). rewrite hist_app, window_prefix by reflexivity.
        rewrite ER, hist_app, <- hist_length, firstn_app, Nat.sub_diag, firstn_O, app_nil_r, firstn_all. reflexivity. }
      rewrite W1. cbv zeta. rewrite !select_range_ok; [|exact HC| |exact OC|].
      + cbn [rbind]. rewrite W2, W3, W4. destruct (body (length done) (map fst p) (ones_of p) (hist_of p)) as [w|e]; [|reflexivity].
        assert (length done + c = length (done ++ p) \/ skipn c rest = []) as [LD|LE].
        { destruct (Nat.le_gt_cases c (length rest)) as [LL|LL].
          - left. rewrite app_length. unfold p. rewrite firstn_length. lia.
          - right. apply skipn_all2. lia. }
        * rewrite LD. rewrite <- hist_length, <- app_length, <- hist_app. apply IH.
          -- rewrite <- app_assoc, <- ER. exact E.
          -- rewrite skipn_length. lia.
        * rewrite LE, chunks_nil. cbn [run].
          assert (length (h_lengths h) <= length done + c) as LB.
          { rewrite HL, map_length, E, app_length. rewrite ER, LE, app_nil_r. unfold p. rewrite firstn_length. lia. }
          apply Nat.leb_le in LB. destruct fuel; cbn [each_window]; rewrite LB; reflexivity.
      + rewrite W4. apply hist_nonempty; [exact PN|]. intros b I. apply NE. rewrite E, ER.
        apply in_or_app. right. apply in_or_app. left. exact I.
      + rewrite W3. unfold ones_of. destruct p; [congruence | discriminate].
  Qed.

  Lemma windows_run : forall c (h : history H) (o : oneline O) bins, 1 <= c -> 1 <= h_chunk h -> 1 <= o_chunk o ->
    written bins (h_rows h) (h_lengths h) (o_rows o) ->
    windows body write c h o = run c 0 (chunks c bins) None.
  Proof using Type.
    intros c h o bins C1 HC OC HW. unfold windows.
    refine (each_window_run c h o bins C1 HC OC HW bins (length (h_lengths h)) [] None eq_refl _).
    destruct HW as (_ & _ & _ & -> & _). rewrite map_length. lia.
  Qed.
End Windows.
Arguments run {H O W} _ _ _ _ _ _.
Arguments hist_of {H O} _.
Arguments ones_of {H O} _.
Arguments lens_of {H O} _.

(** If every piece yields the rows [g] of its binaries, so does the whole. *)
Lemma run_local : forall H O A (body : nat -> list Z -> table O -> table H -> result (table A)) (g : Z * (list H * O) -> table A)
    c (pieces : list (binaries H O)) i out,
  (forall k p, nth_error pieces k = Some p -> body (i + k * c) (map fst p) (ones_of p) (hist_of p) = Ok (flat_map g p)) ->
  exists res, run body (fun rows o => append_rows o rows) c i pieces out = (res, None) /\
    contents res = contents out ++ flat_map g (concat pieces) /\
    (res = None <-> out = None /\ flat_map g (concat pieces) = []).
Proof.
  intros H O A body g c. induction pieces as [|p ps IH]; intros i out HB.
  - exists out. cbn [run concat flat_map]. rewrite app_nil_r. tauto.
  - cbn [run]. pose proof (HB 0 p eq_refl) as B0. rewrite Nat.mul_0_l, Nat.add_0_r in B0. rewrite B0.
    destruct (IH (i + c) (append_rows out (flat_map g p))) as (res & R & C & N).
    { intros k q K. replace (i + c + k * c) with (i + S k * c) by lia. apply (HB (S k) q K). }
    exists res. split; [exact R|]. split.
    + rewrite C, contents_append, <- app_assoc. cbn [concat]. rewrite flat_map_app. reflexivity.
    + rewrite N. cbn [concat]. rewrite flat_map_app.
      destruct (flat_map g p) as [|r rs] eqn:E; cbn [append_rows app]; [tauto|].
      split; intros [X Y]; discriminate.
Qed.

(** ** One chunk of formation channels *)
Section Channels.
  Notation bins := (binaries (option string) one_row).

  Definition class_text (c : option string) : option string :=
    match c with None => None | Some s => dget String.eqb HMS_HMS_event_dict s end.

  Lemma translate_ok : forall (p : bins), (forall b, In b p -> known_class (fst (snd (snd b)))) ->
    translate (ones_of p) = Ok (map (fun b => (fst b, class_text (fst (snd (snd b))))) p).
  Proof.
    induction p as [|[i [evs [cls mt]]] p IH]; intro K; [reflexivity|].
    pose proof (K _ (or_introl eq_refl)) as K0. cbn [fst snd] in K0.
    unfold ones_of in *. cbn [map fst snd translate]. rewrite IH by (intros; apply K; right; assumption).
    destruct cls as [s|]; [|reflexivity]. cbn [known_class In] in K0.
    repeat (destruct K0 as [<-|K0]; [reflexivity|]). destruct K0.
  Qed.

  Lemma filter_one : forall A B (f : A -> Z) (g : A -> B) l x, NoDup (map f l) -> In x l ->
    filter (fun q => Z.eqb (fst q) (f x)) (map (fun a => (f a, g a)) l) = [(f x, g x)].
  Proof.
    intros A B f g. induction l as [|a l IH]; intros x ND I; [destruct I|].
    cbn [map] in ND. apply NoDup_cons_iff in ND. destruct ND as [N ND]. cbn [map filter fst].
    destruct I as [-> |I].
    - rewrite Z.eqb_refl. f_equal.
      assert (forall q, In q (map (fun a => (f a, g a)) l) -> Z.eqb (fst q) (f x) = false) as F.
      { intros q Q. apply in_map_iff in Q. destruct Q as (a & <- & Q). apply Z.eqb_neq. cbn. intro E.
        apply N. rewrite <- E. apply in_map. exact Q. }
      clear -F. induction (map (fun a => (f a, g a)) l) as [|q r IH]; [reflexivity|]. cbn [filter].
      rewrite F by (left; reflexivity). apply IH. intros. apply F. right. assumption.
    - destruct (Z.eqb_spec (f a) (f x)) as [E|_]; [|apply IH; assumption].
      exfalso. apply N. rewrite E. apply in_map. exact I.
  Qed.

  Lemma filter_hist : forall (p : bins) b, NoDup (map fst p) -> In b p ->
    filter (fun r => Z.eqb (fst r) (fst b)) (hist_of p) = map (pair (fst b)) (fst (snd b)).
  Proof.
    assert (forall i j (l : list (option string)), i <> j ->
      filter (fun r => Z.eqb (fst r) i) (map (pair j) l) = []) as F0.
    { intros i j l N. induction l as [|x l IH]; [reflexivity|]. cbn [map filter fst].
      destruct (Z.eqb_spec j i); [congruence | exact IH]. }
    assert (forall i (l : list (option string)), filter (fun r => Z.eqb (fst r) i) (map (pair i) l) = map (pair i) l) as F1.
    { intros i l. induction l as [|x l IH]; [reflexivity|]. cbn [map filter fst]. rewrite Z.eqb_refl, IH. reflexivity. }
    induction p as [|a p IH]; intros b ND I; [destruct I|].
    cbn [map] in ND. apply NoDup_cons_iff in ND. destruct ND as [N ND]. unfold hist_of. cbn [flat_map].
    rewrite filter_app. destruct I as [-> |I].
    - rewrite F1. rewrite <- app_nil_r. f_equal.
      assert (forall l : bins, ~ In (fst b) (map fst l) -> filter (fun r => Z.eqb (fst r) (fst b)) (hist_of l) = []) as G.
      { induction l as [|q l IHl]; intro M; [reflexivity|]. unfold hist_of. cbn [flat_map]. rewrite filter_app.
        rewrite F0 by (intro E; apply M; left; symmetry; exact E). apply IHl. intro M'. apply M. right. exact M'. }
      apply G. exact N.
    - rewrite F0 by (intro E; apply N; rewrite <- E; apply in_map; exact I). apply IH; assumption.
  Qed.

  (** The merged rows of one binary. *)
  Lemma merged_group : forall events classes i cls,
    filter (fun q => Z.eqb (fst q) i) classes = [(i, cls)] ->
    map snd (filter (fun r => Z.eqb (fst r) i) (merge_index events classes))
    = map (fun e => (e, cls)) (present (map snd (filter (fun r => Z.eqb (fst r) i) events))).
  Proof.
    intros events classes i cls C. induction events as [|[j x] events IH]; [reflexivity|].
    unfold merge_index in *. cbn [flat_map fst snd]. rewrite filter_app, map_app, IH. cbn [filter fst].
    destruct (Z.eqb_spec j i) as [-> |N].
    - cbn [map]. destruct x as [e|]; [|reflexivity]. rewrite C. cbn [map filter fst]. rewrite Z.eqb_refl. reflexivity.
    - destruct x as [e|]; [|reflexivity].
      assert (forall l : list (Z * option string), filter (fun r => Z.eqb (fst r) i) (map (fun q => (j, (e, snd q))) l) = []) as G.
      { induction l as [|q l IHl]; [reflexivity|]. cbn [map filter fst]. destruct (Z.eqb_spec j i); [congruence | exact IHl]. }
      rewrite G. reflexivity.
  Qed.

  Definition debug_of (events : list string) (class : option string) : option string :=
    match events with [] => None | _ => Some (text (debug_words events class)) end.

  Lemma get_events_words : forall events class, known_class class ->
    get_events (map (fun e => (e, class_text class)) events) = debug_of events class.
  Proof.
    intros [|e rest] class K; [reflexivity|]. cbn [map get_events debug_of].
    assert (forall (c : option string) l, map fst (map (fun x : string => (x, c)) l) = l) as MF.
    { intros c l. rewrite map_map. cbn [fst]. apply map_id. }
    rewrite MF.
    assert (forall s, existsb (fun q => match snd q with Some x => String.eqb x s | None => false end)
                       ((e, class_text class) :: map (fun x => (x, class_text class)) rest)
                     = match class_text class with Some x => String.eqb x s | None => false end) as EX.
    { intro s. cbn [existsb snd]. induction rest as [|r rest IH]; [cbn; apply orb_false_r|].
      cbn [map existsb snd]. rewrite orb_assoc, orb_diag. apply IH. }
    rewrite !EX. unfold debug_of. destruct class as [s|].
    2:{ cbn [class_text orb]. cbn [map fst]. rewrite ?MF. reflexivity. }
    cbn [known_class In] in K. unfold text.
    repeat (destruct K as [<-|K];
      [vm_compute (class_text _); cbn [String.eqb Ascii.eqb Bool.eqb orb debug_words];
       try (cbn [map fst]; rewrite MF; reflexivity); f_equal; rewrite !join_trail;
       cbn [trail]; rewrite !app_assoc_s; reflexivity|]).
    destruct K.
  Qed.

  (** The row of one binary, as a function of its own data. *)
  Definition chan_of (use_mt : bool) (events : list string) (class mt : option string) : chan_row :=
    let debug := debug_of events class in
    let channel := option_map clean_channel debug in
    let contact := use_mt && match mt with Some m => String.eqb m "Stable contact phase" | None => false end in
    (option_map cut debug,
     option_map cut (if contact then option_map (py_replace "oRLO1" "oRLO1-contact") channel else channel)).

  Lemma map_result_ok : forall A B (f : A -> result B) (g : A -> B) l, (forall x, In x l -> f x = Ok (g x)) ->
    map_result f l = Ok (map g l).
  Proof.
    intros A B f g. induction l as [|x l IH]; intro F; [reflexivity|]. cbn [map_result map].
    rewrite F by (left; reflexivity). cbn [rbind]. rewrite IH by (intros; apply F; right; assumption). reflexivity.
  Qed.

  Definition chan_row_of (use_mt : bool) (b : Z * (list (option string) * one_row)) : Z * chan_row :=
    (fst b, chan_of use_mt (present (fst (snd b))) (fst (snd (snd b))) (snd (snd (snd b)))).

  Lemma chunk_ok : forall use_mt column (p : bins), (use_mt = true -> column = true) -> NoDup (map fst p) ->
    (forall b, In b p -> known_class (fst (snd (snd b))) /\ present (fst (snd b)) <> []) ->
    channel_chunk use_mt column (map fst p) (ones_of p) (hist_of p) = Ok (map (chan_row_of use_mt) p).
  Proof.
    intros use_mt column p COL ND F. unfold channel_chunk.
    rewrite translate_ok by (intros; apply F; assumption). cbn [rbind].
    assert (use_mt && negb column = false) as -> by (destruct use_mt, column; try reflexivity; specialize (COL eq_refl); discriminate).
    rewrite (map_result_ok _ _ _ (fun i => (i, match filter (fun b => Z.eqb (fst b) i) p with
                                               | b :: _ => snd (chan_row_of use_mt b) | [] => (None, None) end))).
    - f_equal. rewrite map_map. apply map_ext_in. intros b I.
      assert (filter (fun q : Z * (list (option string) * one_row) => Z.eqb (fst q) (fst b)) p = [b]) as ->; [|reflexivity].
      pose proof (filter_one (Z * (list (option string) * one_row)) (list (option string) * one_row) fst snd p b ND I) as FO.
      assert (map (fun a : Z * (list (option string) * one_row) => (fst a, snd a)) p = p) as MI.
      { rewrite <- (map_id p) at 2. apply map_ext. intros []; reflexivity. }
      rewrite MI in FO. rewrite FO. destruct b; reflexivity.
    - intros i I. apply in_map_iff in I. destruct I as (b & <- & I). destruct (F b I) as [K P].
      cbv zeta.
      rewrite (merged_group _ _ _ (class_text (fst (snd (snd b))))) by (apply (filter_one _ _ fst (fun b => class_text (fst (snd (snd b))))); assumption).
      rewrite filter_hist by assumption. rewrite map_map. cbn [snd]. rewrite map_id. rewrite get_events_words by exact K.
      unfold ones_of. rewrite (filter_one _ _ fst (fun b : Z * (list (option string) * one_row) => snd (snd b))) by assumption.
      cbn [fst snd].
      assert (filter (fun q : Z * (list (option string) * one_row) => Z.eqb (fst q) (fst b)) p = [b]) as ->.
      { pose proof (filter_one (Z * (list (option string) * one_row)) (list (option string) * one_row) fst snd p b ND I) as FO.
        assert (map (fun a : Z * (list (option string) * one_row) => (fst a, snd a)) p = p) as MI.
        { rewrite <- (map_id p) at 2. apply map_ext. intros []; reflexivity. }
        rewrite MI in FO. rewrite FO. destruct b; reflexivity. }
      unfold chan_row_of, chan_of. cbn [fst snd].
      assert (exists s, debug_of (present (fst (snd b))) (fst (snd (snd b))) = Some s) as [s ->].
      { unfold debug_of. destruct (present (fst (snd b))); [congruence | eexists; reflexivity]. }
      cbn [option_map]. unfold get_mt_history.
      destruct use_mt; cbn [andb rbind]; [|reflexivity].
      destruct (snd (snd (snd b))) as [m|]; cbn [rbind]; [|reflexivity].
      destruct (String.eqb m "Stable contact phase"); reflexivity.
  Qed.

  (** ** The text of a channel *)
  Definition word_list : list string := "oRLO1-reverse" :: event_words.

  Lemma debug_words_in : forall events class, (forall e, In e events -> In e event_words) ->
    forall w, In w (debug_words events class) -> In w word_list.
  Proof.
    intros [|e rest] class F w I; [destruct I|].
    assert (forall x, In x (e :: rest) -> In x word_list) as F' by (intros x X; right; apply F; exact X).
    unfold debug_words in I.
    assert (In w (e :: "oRLO1" :: rest) \/ In w (e :: "oRLO1-reverse" :: rest) \/ In w (e :: rest)) as C.
    { repeat match type of I with context [match ?x with _ => _ end] => destruct x end; tauto. }
    destruct C as [C|[C|C]]; cbn [In] in C.
    - destruct C as [<-|[<-|C]]; [apply F'; left; reflexivity | vm_compute; tauto | apply F'; right; exact C].
    - destruct C as [<-|[<-|C]]; [apply F'; left; reflexivity | left; reflexivity | apply F'; right; exact C].
    - apply F'. exact C.
  Qed.

  Definition without (tag : string) (l : list string) : list string := filter (fun x => negb (String.eqb x tag)) l.
  Definition V1 := without "redirect_from_ZAMS" word_list.
  Definition V2 := without "redirect_from_CO_HMS_RLO" V1.
  Definition V3 := without "redirect_from_CO_HeMS_RLO" V2.
  Definition V4 := without "redirect_from_CO_HeMS" V3.

  Lemma rem0 : removable "redirect_from_ZAMS" word_list word_list = true. Proof. vm_compute. reflexivity. Qed.
  Lemma rem1 : removable "redirect_from_CO_HMS_RLO" word_list V1 = true. Proof. vm_compute. reflexivity. Qed.
  Lemma rem2 : removable "redirect_from_CO_HeMS_RLO" word_list V2 = true. Proof. vm_compute. reflexivity. Qed.
  Lemma rem3 : removable "redirect_from_CO_HeMS" word_list V3 = true. Proof. vm_compute. reflexivity. Qed.
  Lemma rem4 : removable "CO_contact" word_list V4 = true. Proof. vm_compute. reflexivity. Qed.

  Lemma without_in : forall tag l V, (forall x, In x l -> In x V) -> forall x, In x (without tag l) -> In x (without tag V).
  Proof. intros tag l V F x I. apply filter_In in I. apply filter_In. split; [apply F|]; tauto. Qed.

  Lemma clean_words : forall w l, In w word_list -> (forall x, In x l -> In x word_list) ->
    clean_channel (text (w :: l)) = text (w :: filter (fun x => negb (hidden x)) l).
  Proof.
    intros w l W F. unfold clean_channel, text.
    pose proof (without_in "redirect_from_ZAMS" l word_list F) as F1.
    pose proof (without_in "redirect_from_CO_HMS_RLO" _ _ F1) as F2.
    pose proof (without_in "redirect_from_CO_HeMS_RLO" _ _ F2) as F3.
    pose proof (without_in "redirect_from_CO_HeMS" _ _ F3) as F4.
    assert (forall tag V m, removable tag word_list V = true -> (forall x, In x m -> In x V) ->
      py_replace ("_" ++ tag) "" (String.concat "_" (w :: m)) = String.concat "_" (w :: without tag m)) as RT.
    { intros tag V m R I. exact (remove_tag tag word_list V w m R W I). }
    pose proof (RT _ _ _ rem0 F) as R0. pose proof (RT _ _ _ rem1 F1) as R1. pose proof (RT _ _ _ rem2 F2) as R2.
    pose proof (RT _ _ _ rem3 F3) as R3. pose proof (RT _ _ _ rem4 F4) as R4.
    cbn [append] in R0, R1, R2, R3, R4. rewrite R0, R1, R2, R3, R4.
    do 2 f_equal. clear. induction l as [|x l IH]; [reflexivity|]. unfold without in *. cbn [filter].
    unfold hidden at 1. cbn [existsb].
    destruct (String.eqb x "redirect_from_ZAMS"); cbn [negb orb filter]; [exact IH|].
    destruct (String.eqb x "redirect_from_CO_HMS_RLO") eqn:E2; cbn [negb orb filter]; [exact IH|].
    destruct (String.eqb x "redirect_from_CO_HeMS_RLO") eqn:E3; cbn [negb orb filter]; [exact IH|].
    destruct (String.eqb x "redirect_from_CO_HeMS") eqn:E4; cbn [negb orb filter]; [exact IH|].
    destruct (String.eqb x "CO_contact") eqn:E5; cbn [negb orb filter]; [exact IH|].
    f_equal. exact IH.
  Qed.

  Lemma mark_word : forall w, In w word_list -> py_replace "oRLO1" "oRLO1-contact" w = mark w.
  Proof.
    assert (forallb (fun w => String.eqb (py_replace "oRLO1" "oRLO1-contact" w) (mark w)) word_list = true) as F
      by (vm_compute; reflexivity).
    rewrite forallb_forall in F. intros w W. apply String.eqb_eq. apply F. exact W.
  Qed.

  Lemma chan_of_words : forall use_mt events class mt, events <> [] -> (forall e, In e events -> In e event_words) ->
    chan_of use_mt events class mt =
    (Some (first100 (text (debug_words events class))),
     Some (first100 (text (channel_words (debug_words events class)
        (use_mt && match mt with Some m => String.eqb m "Stable contact phase" | None => false end))))).
  Proof.
    intros use_mt events class mt N F. unfold chan_of, debug_of. destruct events as [|e rest]; [congruence|].
    cbn [option_map]. change cut with first100. f_equal.
    pose proof (debug_words_in (e :: rest) class F) as D.
    assert (exists w l, debug_words (e :: rest) class = w :: l) as (w & l & E).
    { unfold debug_words. repeat match goal with |- context [match ?x with _ => _ end] => destruct x end; eexists _, _; reflexivity. }
    rewrite E in *. clear E.
    assert (In w word_list) as W by (apply D; left; reflexivity).
    assert (forall x, In x l -> In x word_list) as L by (intros; apply D; right; assumption).
    rewrite clean_words by assumption. unfold channel_words.
    destruct (use_mt && _); [|reflexivity]. cbn [option_map]. do 2 f_equal. unfold text.
    rewrite replace_words; [| cbn; repeat split; discriminate | discriminate]. f_equal.
    apply map_ext_in. intros x X. apply mark_word.
    destruct X as [<-|X]; [exact W|]. apply filter_In in X. apply L. tauto.
  Qed.
End Channels.
