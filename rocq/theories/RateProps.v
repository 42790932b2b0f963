(** Theorems about model weights, cosmic weights, observable populations, efficiencies and
    rate densities (C33, C34, C35, C53, C54). *)
From Coq Require Import String List ZArith QArith Bool Lia PeanoNat Lqa.
From Verif Require Import PyBase PyList TableModel TableSpec TableProofs ExportModel ExportProofs RateModel RateProofs.
Import ListNotations.
Open Scope string_scope.
Open Scope nat_scope.
Open Scope list_scope.

(** ** C33: model weights *)

(** The weight of a transient that the documentation promises: the weight of its own initial
    system in the simulation of its own metallicity; 0 if it is not a number or if nothing is
    known about the metallicity. *)
Definition own_weight {O} (weight : Q -> O -> option Q) (masses : list (Z * Q)) (o : oneline O) (z i : Z) (w : Q) : Prop :=
  (forall m x, In (z, m) masses -> In (i, x) (o_rows o) -> w = match weight m x with Some v => v | None => 0%Q end) /\
  (~ In z (map fst masses) -> w = 0%Q).

Theorem model_weights_exact : forall O (weight : Q -> O -> option Q) (trans : table Z) (o : oneline O) masses,
  1 <= o_chunk o -> ascending (keys (o_rows o)) ->
  (forall i, In i (keys trans) -> In i (keys (o_rows o))) ->
  (forall i z1 z2, In (i, z1) trans -> In (i, z2) trans -> z1 = z2) ->
  NoDup (map fst masses) ->
  exists out, calculate_model_weights weight trans o masses = Ok out /\ length out = length trans /\
    forall k i z, nth_error trans k = Some (i, z) ->
      exists w, nth_error out k = Some (i, w) /\ own_weight weight masses o z i w.
Proof.
  intros O weight trans o masses C1 AS F FU ND.
  destruct (all_metallicities O weight trans o C1 AS F FU masses (map (fun r => (fst r, 0%Q)) trans) ND) as (out & E & L & P).
  exists out. split; [exact E|]. split; [rewrite L; apply map_length|].
  intros k i z K. destruct (P k i 0%Q) as [P1 P2]; [rewrite nth_map_error, K; reflexivity|].
  assert (In (i, z) trans) as I0 by (apply nth_error_In in K; exact K).
  assert (In i (keys (o_rows o))) as IO by (apply F; unfold keys; change i with (fst (i, z)); apply in_map; exact I0).
  unfold keys in IO. apply in_map_iff in IO. destruct IO as ([i0 x] & E0 & IX). cbn [fst] in E0. subst i0.
  destruct (in_dec Z.eq_dec z (map fst masses)) as [IM|NM].
  - assert (exists m, In (z, m) masses) as [m M].
    { apply in_map_iff in IM. destruct IM as ([z0 m] & E0 & IM). cbn [fst] in E0. subst z0. exists m. exact IM. }
    exists (match weight m x with Some v => v | None => 0%Q end). split; [apply (P1 z m x I0 M IX)|].
    split; [|contradiction]. intros m' x' M' X'.
    pose proof (P1 z m x I0 M IX) as A. pose proof (P1 z m' x' I0 M' X') as B. rewrite A in B. congruence.
  - exists 0%Q. split; [apply (P2 z I0 NM)|]. split; [|reflexivity].
    intros m x' M _. exfalso. apply NM. apply (in_map fst) in M. exact M.
Qed.
Print Assumptions model_weights_exact.

Example model_weights_case :
  let o := Oneline [(0%Z, 10%Q); (1%Z, 20%Q); (2%Z, 30%Q); (5%Z, 50%Q)] [] 2 in
  calculate_model_weights (fun m x => if Qle_bool 50 x then None else Some (x / m)%Q)
    [(2%Z, 7%Z); (0%Z, 7%Z); (1%Z, 8%Z); (0%Z, 7%Z); (5%Z, 7%Z)] o [(7%Z, 10%Q); (9%Z, 3%Q)] =
  Ok [(2%Z, (30 / 10)%Q); (0%Z, (10 / 10)%Q); (1%Z, 0%Q); (0%Z, (10 / 10)%Q); (5%Z, 0%Q)].
Proof. reflexivity. Qed.

(** The index list is sorted but the table is read in file order: with a one-line table that is
    not sorted by index, systems get each other's weights. *)
Theorem model_weights_unsorted_refuted : exists (trans : table Z) (o : oneline Q) masses out w,
  1 <= o_chunk o /\ NoDup (keys (o_rows o)) /\ (forall i, In i (keys trans) -> In i (keys (o_rows o))) /\
  calculate_model_weights (fun m x => Some x) trans o masses = Ok out /\
  nth_error out 0 = Some (1%Z, w) /\ nth_error trans 0 = Some (1%Z, 7%Z) /\
  ~ own_weight (fun m x => Some x) masses o 7 1 w.
Proof.
  exists [(1%Z, 7%Z); (2%Z, 7%Z)], (Oneline [(2%Z, 20%Q); (1%Z, 10%Q)] [] 100), [(7%Z, 1%Q)], [(1%Z, 20%Q); (2%Z, 10%Q)], 20%Q.
  split; [cbn; lia|]. split; [repeat constructor; cbn; intuition discriminate|]. split; [cbn; intuition|].
  split; [reflexivity|]. split; [reflexivity|]. split; [reflexivity|].
  intros [A _]. specialize (A 1%Q 10%Q). cbn in A. assert (20 = 10)%Q as X by (apply A; tauto). discriminate X.
Qed.
Print Assumptions model_weights_unsorted_refuted.

(** ** C34: cosmic weights *)

(** The parameter [k] of the model used by the last of a sequence of calls: the latest value any
    of the calls gave, or the default. *)
Definition given_parameters (calls : list (option sfh_model)) : sfh_model :=
  flat_map (fun c => match c with Some m => m | None => [] end) calls.

Theorem cosmic_model_accumulates : forall default calls last k,
  exists m, nth_error (cosmic_models default (calls ++ [last])) (length calls) = Some m /\
    dget String.eqb m k =
    match last_write String.eqb (given_parameters (calls ++ [last])) k with
    | Some v => Some v | None => dget String.eqb default k end.
Proof.
  intros default calls. revert default. induction calls as [|c cs IH]; intros default last k.
  - cbn [cosmic_models app nth_error length]. exists (cosmic_model default last). split; [reflexivity|].
    unfold given_parameters. cbn [flat_map]. rewrite app_nil_r. destruct last as [m|]; cbn [cosmic_model].
    + apply (dget_dset_all String.eqb_spec).
    + reflexivity.
  - cbn [cosmic_models app nth_error length]. destruct (IH (cosmic_model default c) last k) as (m & E & V).
    exists m. split; [exact E|]. rewrite V. unfold given_parameters. cbn [flat_map].
    assert (forall a b, last_write String.eqb (a ++ b) k =
              match last_write String.eqb b k with Some v => Some v | None => last_write (V:=string) String.eqb a k end) as LA.
    { clear. induction a as [|[x v] a IH]; intro b; [cbn [app]; destruct (last_write String.eqb b k); reflexivity|].
      cbn [app]. rewrite !last_write_cons, IH. destruct (last_write String.eqb b k); reflexivity. }
    rewrite LA. fold (given_parameters (cs ++ [last])).
    destruct (last_write String.eqb (given_parameters (cs ++ [last])) k); [reflexivity|].
    destruct c as [m0|]; cbn [cosmic_model]; [|reflexivity]. apply (dget_dset_all String.eqb_spec).
Qed.
Print Assumptions cosmic_model_accumulates.

Example cosmic_model_case :
  cosmic_models [("SFR", "IllustrisTNG"); ("delta_t", "100")] [Some [("SFR", "Neijssel2019")]; None; Some [("delta_t", "10")]] =
  [ [("SFR", "Neijssel2019"); ("delta_t", "100")]; [("SFR", "Neijssel2019"); ("delta_t", "100")];
    [("SFR", "Neijssel2019"); ("delta_t", "10")] ].
Proof. reflexivity. Qed.

(** So the weights of a call depend on earlier calls: a call that gives no model does not use
    the default one. *)
Theorem cosmic_model_default_refuted : exists default first m,
  nth_error (cosmic_models default [Some first; None]) 1 = Some m /\ m <> default.
Proof. exists [("SFR", "IllustrisTNG")], [("SFR", "Madau+Fragos17")], [("SFR", "Madau+Fragos17")]. split; [reflexivity | discriminate]. Qed.
Print Assumptions cosmic_model_default_refuted.

(** Which rows are written, and with which values. *)
Theorem cosmic_weights_exact : forall T A (compute : nat -> T -> Q -> A) zeros centers c systems trans ws,
  1 <= c -> length trans = length ws ->
  let out := cosmic_weights compute zeros centers c systems trans ws in
  length out = Nat.min (c * ((systems + (c - 1)) / c)) (length trans) /\
  (forall k i met t w, k < length out -> nth_error trans k = Some (i, (met, t)) -> nth_error ws k = Some w ->
     exists a, nth_error out k = Some (i, a) /\
       (~ In met centers -> a = zeros) /\
       (NoDup centers -> forall j, nth_error centers j = Some met -> a = compute j t w)).
Proof.
  intros T A compute zeros centers c systems trans ws C1 L out.
  assert (out = map (fun p => (fst (fst p), overwrite_centers (fst (snd (fst p))) centers 0
                                  (fun j => compute j (snd (snd (fst p))) (snd p)) zeros))
                    (firstn (covered c systems) (combine trans ws))) as E.
  { unfold out, cosmic_weights.
    apply (chunked_rows _ _ _ (cosmic_chunk T A compute zeros centers)
             (fun t w => (fst t, overwrite_centers (fst (snd t)) centers 0 (fun j => compute j (snd (snd t)) w) zeros)));
      [|exact C1|exact L]. intros. reflexivity. }
  rewrite E. split.
  - rewrite map_length, firstn_length, combine_length, L, Nat.min_id. reflexivity.
  - intros k i met t w K K1 K2.
    rewrite map_length, firstn_length in K.
    exists (overwrite_centers met centers 0 (fun j => compute j t w) zeros). split.
    + rewrite nth_map_error, nth_firstn_lt by lia.
      assert (nth_error (combine trans ws) k = Some ((i, (met, t)), w)) as ->; [|reflexivity].
      clear -K1 K2. revert k ws K1 K2. induction trans as [|x l IH]; intros [|k] [|y ws] K1 K2; try discriminate.
      * cbn in *. congruence.
      * cbn [nth_error combine] in *. apply IH; assumption.
    + split; [apply overwrite_none|]. intros ND j J. rewrite (overwrite_at _ _ _ _ _ _ j ND J). reflexivity.
Qed.
Print Assumptions cosmic_weights_exact.

Example cosmic_weights_case :
  cosmic_weights (fun j t w => (j, (t * w)%Q)) (9, 0%Q) [7%Z; 8%Z] 2 3
    [(0%Z, (7%Z, 1%Q)); (1%Z, (8%Z, 2%Q)); (1%Z, (8%Z, 3%Q)); (2%Z, (6%Z, 4%Q))] [10%Q; 20%Q; 30%Q; 40%Q] =
  [(0%Z, (0, (1 * 10)%Q)); (1%Z, (1, (2 * 20)%Q)); (1%Z, (1, (3 * 30)%Q)); (2%Z, (9, 0%Q))].
Proof. reflexivity. Qed.

(** Every transient gets weights iff the chunks of the systems reach the last one; in particular
    if there are no more transients than systems. *)
Theorem cosmic_weights_cover : forall T A (compute : nat -> T -> Q -> A) zeros centers c systems trans ws,
  1 <= c -> length trans = length ws ->
  (map fst (cosmic_weights compute zeros centers c systems trans ws) = map fst trans <->
   length trans <= c * ((systems + (c - 1)) / c)) /\
  (length trans <= systems -> map fst (cosmic_weights compute zeros centers c systems trans ws) = map fst trans).
Proof.
  intros T A compute zeros centers c systems trans ws C1 L.
  destruct (cosmic_weights_exact T A compute zeros centers c systems trans ws C1 L) as [LO P].
  assert (length trans <= c * ((systems + (c - 1)) / c) ->
          map fst (cosmic_weights compute zeros centers c systems trans ws) = map fst trans) as W.
  { intro B. apply nth_ext_error. intro k. rewrite !nth_map_error.
    destruct (nth_error trans k) as [[i [met t]]|] eqn:K.
    - assert (k < length trans) as KL by (apply nth_error_Some; congruence).
      destruct (nth_error ws k) as [w|] eqn:KW; [|apply nth_error_None in KW; lia].
      destruct (P k i met t w) as (a & E & _); [lia|exact K|exact KW|]. rewrite E. reflexivity.
    - apply nth_error_None in K.
      assert (nth_error (cosmic_weights compute zeros centers c systems trans ws) k = None) as -> by (apply nth_error_None; lia).
      reflexivity. }
  split.
  - split; [|exact W]. intro E. apply (f_equal (@length Z)) in E. rewrite !map_length in E. lia.
  - intro B. apply W.
    enough (systems <= c * ((systems + (c - 1)) / c)) by lia.
    pose proof (Nat.div_mod (systems + (c - 1)) c ltac:(lia)). pose proof (Nat.mod_upper_bound (systems + (c - 1)) c ltac:(lia)). lia.
Qed.
Print Assumptions cosmic_weights_cover.

(** A system may have several transients (e.g. two gamma-ray bursts), so there can be more. *)
Theorem cosmic_weights_missing_refuted : exists c systems (trans : list (Z * (Z * unit))) ws,
  1 <= c /\ length trans = length ws /\ (forall i, In i (map fst trans) -> (0 <= i < Z.of_nat systems)%Z) /\
  map fst (cosmic_weights (fun _ _ w => w) 0%Q [7%Z] c systems trans ws) <> map fst trans.
Proof.
  exists 1, 1, [(0%Z, (7%Z, tt)); (0%Z, (7%Z, tt))], [1%Q; 1%Q].
  split; [lia|]. split; [reflexivity|]. split; [cbn; lia|]. cbn. discriminate.
Qed.
Print Assumptions cosmic_weights_missing_refuted.

(** ** C53: observable populations *)

(** Calculating an observable population from row-wise detection probabilities. *)
Theorem observable_exact : forall T W R (func : list T -> list W -> list R) g name c systems trans ws file,
  (forall ts ws, length ts = length ws -> func ts ws = map (fun p => g (fst p) (snd p)) (combine ts ws)) ->
  1 <= c -> length trans = length ws ->
  let rows := map (fun p => g (fst p) (snd p)) (firstn (c * ((systems + (c - 1)) / c)) (combine trans ws)) in
  let file' := calculate_observable func name c systems trans ws file in
  (observable_population name file' = match rows with [] => Raise ValueError | _ => Ok rows end) /\
  (forall other, other <> name -> observable_population other file' = observable_population other file).
Proof.
  intros T W R func g name c systems trans ws file RW C1 L rows file'.
  assert (chunked func c systems trans ws = rows) as E by (apply (chunked_rows _ _ _ func g RW); assumption).
  assert (forall n, dget String.eqb (filter (fun p => negb (String.eqb (fst p) name)) file) n =
                    if String.eqb n name then None else dget (V:=list R) String.eqb file n) as DF.
  { clear. induction file as [|[a v] file IH]; intro n; [cbn; destruct (String.eqb n name); reflexivity|].
    cbn [filter fst]. destruct (String.eqb_spec a name) as [-> |N]; cbn [negb dget].
    - rewrite IH. destruct (String.eqb_spec n name) as [-> |N2]; [reflexivity|]. reflexivity.
    - cbn [dget]. rewrite IH. destruct (String.eqb_spec n a) as [-> |N2]; [|reflexivity].
      destruct (String.eqb_spec a name); [contradiction | reflexivity]. }
  assert (forall (l : list (string * list R)) n k v, dget String.eqb (l ++ [(k, v)]) n =
            match dget String.eqb l n with Some x => Some x | None => if String.eqb n k then Some v else None end) as DA.
  { clear. induction l as [|[a x] l IH]; intros; [reflexivity|]. cbn [app dget]. destruct (String.eqb n a); [reflexivity | apply IH]. }
  unfold file', calculate_observable. rewrite E. unfold observable_population. split.
  - destruct rows as [|r rs]; [rewrite DF, String.eqb_refl; reflexivity|]. rewrite DA, DF, String.eqb_refl. reflexivity.
  - intros other N. apply String.eqb_neq in N.
    destruct rows as [|r rs]; [rewrite DF, N; reflexivity|]. rewrite DA, DF, N.
    destruct (dget String.eqb file other); reflexivity.
Qed.
Print Assumptions observable_exact.

Example observable_case :
  let func := fun (ts : list Q) (ws : list Q) => map (fun p => (fst p * snd p)%Q) (combine ts ws) in
  let file := calculate_observable func "O3" 2 3 [1%Q; 0%Q; 1%Q] [5%Q; 6%Q; 7%Q] [("O4", [9%Q])] in
  observable_population "O3" file = Ok [(1 * 5)%Q; (0 * 6)%Q; (1 * 7)%Q] /\ observable_population "O4" file = Ok [9%Q].
Proof. split; reflexivity. Qed.

(** The table belongs to the transient population, not to the star-formation history: after the
    same observable was calculated for a second history, the first one's is gone. *)
Theorem observable_per_history_refuted : exists (trans : list Q) weights1 weights2,
  let func := fun (ts ws : list Q) => map (fun p => (fst p * snd p)%Q) (combine ts ws) in
  let first := calculate_observable func "O3" 2 1 trans weights1 [] in
  let second := calculate_observable func "O3" 2 1 trans weights2 first in
  observable_population "O3" first <> observable_population "O3" second.
Proof. exists [1%Q], [2%Q], [3%Q]. cbn. discriminate. Qed.
Print Assumptions observable_per_history_refuted.

(** ** C54: efficiencies *)
Definition sum_where (p : event -> bool) (events : list event) : Q :=
  fold_right (fun e acc => if p e then (ev_weight e + acc)%Q else acc) 0%Q events.
Definition has_channel (c : string) (e : event) : bool := match ev_chan e with Some d => String.eqb d c | None => false end.

Lemma nsum_where : forall p l, nsum (map ev_weight (filter p l)) = sum_where p l.
Proof.
  intros p. induction l as [|e l IH]; [reflexivity|]. cbn [filter sum_where fold_right]. fold (sum_where p l).
  destruct (p e); cbn [map]; [unfold nsum in *; cbn [fold_right]; rewrite IH|]; congruence || exact IH.
Qed.

Lemma same_cell_spec : forall a b, reflect (a = b) (same_cell a b).
Proof.
  intros [m c] [n d]. unfold same_cell. cbn [fst snd]. destruct (Z.eqb_spec m n), (String.eqb_spec c d); constructor; congruence.
Qed.
Lemma cells_value : forall (cells : list ((Z * string) * Q)) k v,
  (forall v', In (k, v') cells -> v' = v) -> In (k, v) cells -> last_write same_cell cells k = Some v.
Proof.
  induction cells as [|[k0 v0] l IH]; intros k v U I; [destruct I|]. rewrite last_write_cons.
  destruct (last_write same_cell l k) as [v'|] eqn:E.
  - assert (In (k, v') l) as I'.
    { clear -E. induction l as [|[k1 v1] l IH]; [discriminate|]. rewrite last_write_cons in E.
      destruct (last_write same_cell l k); [right; apply IH; congruence|].
      destruct (same_cell_spec k k1) as [-> |]; [left; congruence | discriminate]. }
    f_equal. apply U. right. exact I'.
  - destruct I as [I|I].
    + assert (k0 = k /\ v0 = v) as [-> ->] by (split; congruence). destruct (same_cell_spec k k); [reflexivity | contradiction].
    + rewrite (IH k v) in E; [discriminate| |exact I]. intros v' I'. apply U. right. exact I'.
Qed.
Lemma cells_none : forall (cells : list ((Z * string) * Q)) k, (forall v, ~ In (k, v) cells) -> last_write same_cell cells k = None.
Proof.
  induction cells as [|[k0 v0] l IH]; intros k N; [reflexivity|]. rewrite last_write_cons.
  rewrite IH by (intros v I; apply (N v); right; exact I).
  destruct (same_cell_spec k k0) as [-> |]; [exfalso; apply (N v0); left; reflexivity | reflexivity].
Qed.

Definition at_met (m : Z) (e : event) : bool := Z.eqb (ev_met e) m.
Definition at_cell (m : Z) (c : string) (e : event) : bool := at_met m e && has_channel c e.

Lemma in_groups : forall events m ch v,
  In ((m, ch), v) (flat_map (fun m0 =>
      let here := filter (fun e => Z.eqb (ev_met e) m0) events in
      map (fun c => ((m0, c), nsum (map ev_weight (filter (fun e => match ev_chan e with Some d => String.eqb d c | None => false end) here))))
          (channels_of here)) (sorted_unique (map ev_met events))) <->
  v = sum_where (at_cell m ch) events /\ exists e, In e events /\ ev_met e = m /\ ev_chan e = Some ch.
Proof.
  intros events m ch v.
  assert (forall m0 c, nsum (map ev_weight (filter (fun e => match ev_chan e with Some d => String.eqb d c | None => false end)
             (filter (fun e => Z.eqb (ev_met e) m0) events))) = sum_where (at_cell m0 c) events) as S1.
  { intros. rewrite <- nsum_where. f_equal. f_equal. unfold at_cell, at_met, has_channel. clear.
    induction events as [|e l IH]; [reflexivity|]. cbn [filter]. destruct (Z.eqb (ev_met e) m0); cbn [andb filter]; [|exact IH].
    destruct (match ev_chan e with Some d => String.eqb d c | None => false end); rewrite IH; reflexivity. }
  rewrite in_flat_map. split.
  - intros (m0 & M & I). cbv zeta in I. apply in_map_iff in I. destruct I as (c & E & I).
    rewrite S1 in E. assert (m0 = m /\ c = ch /\ v = sum_where (at_cell m0 c) events) as (-> & -> & ->) by (repeat split; congruence).
    split; [reflexivity|]. unfold channels_of in I. apply (proj1 (distinct_in _ _)) in I. apply in_flat_map in I.
    destruct I as (e & IE & IC). apply filter_In in IE. destruct IE as [IE EM]. apply Z.eqb_eq in EM. exists e.
    split; [exact IE|]. split; [exact EM|]. destruct (ev_chan e) as [d|]; [destruct IC as [-> |[]]; reflexivity | destruct IC].
  - intros [-> (e & IE & EM & EC)]. exists m. split.
    + apply sorted_unique_in. rewrite <- EM. apply in_map. exact IE.
    + cbv zeta. apply in_map_iff. exists ch. rewrite S1. split; [reflexivity|]. apply (proj2 (distinct_in _ _)).
      apply in_flat_map. exists e. split; [apply filter_In; split; [exact IE | apply Z.eqb_eq; exact EM]|]. rewrite EC. left. reflexivity.
Qed.

Lemma sum_where_none : forall p l, (forall e, In e l -> p e = false) -> sum_where p l = 0%Q.
Proof. intros p. induction l as [|e l IH]; intro N; [reflexivity|]. cbn [sum_where fold_right]. rewrite (N e) by (left; reflexivity). apply IH. intros; apply N; right; assumption. Qed.

(** Every cell of the table of efficiencies. *)
Theorem efficiency_exact : forall mets events m,
  (forall ch, ch <> "total" -> efficiency mets events true m ch = sum_where (at_cell m ch) events) /\
  (forall ch, ch <> "total" -> efficiency mets events false m ch = 0%Q) /\
  (In m mets -> efficiency mets events false m "total" = sum_where (at_met m) events) /\
  (In m mets -> (forall e, In e events -> ev_met e = m -> ev_chan e <> Some "total") ->
     efficiency mets events true m "total" = sum_where (at_met m) events).
Proof.
  intros mets events m. unfold efficiency, efficiency_cells.
  assert (forall v c, In ((m, c), v) (map (fun m0 => ((m0, "total"), nsum (map ev_weight (filter (fun e => Z.eqb (ev_met e) m0) events)))) mets) <->
            c = "total" /\ v = sum_where (at_met m) events /\ In m mets) as TT.
  { intros v c. rewrite in_map_iff. split.
    - intros (m0 & E & I). assert (m0 = m) as -> by congruence. split; [congruence|]. split; [|exact I].
      assert (v = nsum (map ev_weight (filter (fun e => Z.eqb (ev_met e) m) events))) as -> by congruence. apply nsum_where.
    - intros (-> & -> & I). exists m. split; [|exact I]. f_equal. apply nsum_where. }
  split; [|split; [|split]].
  - intros ch N.
    destruct (existsb (at_cell m ch) events) eqn:X.
    + apply existsb_exists in X. destruct X as (e & IE & C). unfold at_cell, at_met, has_channel in C. apply andb_prop in C.
      destruct C as [C1 C2]. apply Z.eqb_eq in C1. destruct (ev_chan e) as [d|] eqn:EC; [|discriminate]. apply String.eqb_eq in C2. subst d.
      rewrite (cells_value _ _ (sum_where (at_cell m ch) events)); [reflexivity| |].
      * intros v' I. apply in_app_iff in I. destruct I as [I|I]; [apply TT in I; tauto | apply (proj1 (in_groups _ _ _ _)) in I; tauto].
      * apply in_or_app. right. apply (proj2 (in_groups _ _ _ _)). split; [reflexivity|]. exists e. auto.
    + rewrite cells_none.
      * symmetry. apply sum_where_none. intros e IE. destruct (at_cell m ch e) eqn:C; [|reflexivity].
        rewrite <- X. symmetry. apply existsb_exists. exists e. auto.
      * intros v I. apply in_app_iff in I. destruct I as [I|I]; [apply TT in I; tauto|].
        apply (proj1 (in_groups _ _ _ _)) in I. destruct I as (_ & e & IE & EM & EC).
        enough (existsb (at_cell m ch) events = true) by congruence. apply existsb_exists. exists e. split; [exact IE|].
        unfold at_cell, at_met, has_channel. rewrite EC, EM, Z.eqb_refl, String.eqb_refl. reflexivity.
  - intros ch N. rewrite cells_none; [reflexivity|]. intros v I. apply TT in I. tauto.
  - intro IM. rewrite (cells_value _ _ (sum_where (at_met m) events)); [reflexivity| |].
    + intros v' I. apply TT in I. tauto.
    + apply TT. auto.
  - intros IM NT. rewrite (cells_value _ _ (sum_where (at_met m) events)); [reflexivity| |].
    + intros v' I. apply in_app_iff in I. destruct I as [I|I]; [apply TT in I; tauto|].
      apply (proj1 (in_groups _ _ _ _)) in I. destruct I as (_ & e & IE & EM & EC). exfalso. apply (NT e); auto.
    + apply in_or_app. left. apply TT. auto.
Qed.
Print Assumptions efficiency_exact.

(** The total is the sum over the channels when every transient has one. *)
Theorem efficiency_adds_up : forall mets events m ks,
  In m mets -> NoDup ks ->
  (forall e, In e events -> ev_met e = m -> exists c, ev_chan e = Some c /\ c <> "total" /\ In c ks) ->
  ~ In "total" ks ->
  (efficiency mets events true m "total" == nsum (map (efficiency mets events true m) ks))%Q.
Proof.
  intros mets events m ks IM ND CH NT. destruct (efficiency_exact mets events m) as (E1 & _ & _ & E4).
  rewrite E4; [|exact IM|].
  2:{ intros e IE EM EC. destruct (CH e IE EM) as (c & C1 & C2 & _). congruence. }
  set (here := filter (at_met m) events).
  assert (sum_where (at_met m) events == fold_right (fun a acc => ev_weight a + acc) 0 here)%Q as ->.
  { unfold here. clear. induction events as [|e l IH]; [reflexivity|]. cbn [sum_where fold_right filter]. fold (sum_where (at_met m) l).
    destruct (at_met m e); cbn [fold_right]; rewrite IH; reflexivity. }
  rewrite (sum_by_key event (fun e => match ev_chan e with Some c => c | None => "" end) ev_weight here ks ND).
  - assert (forall c, In c ks -> fold_right (fun a acc => ev_weight a + acc) 0 (filter (fun e => String.eqb match ev_chan e with Some d => d | None => "" end c) here) == efficiency mets events true m c)%Q as S1.
    { intros c IC. rewrite E1 by (intros ->; contradiction). unfold here. clear -CH.
      induction events as [|e l IH]; [reflexivity|].
      assert (forall e0, In e0 l -> ev_met e0 = m -> exists c0, ev_chan e0 = Some c0 /\ c0 <> "total" /\ In c0 ks) as CH' by (intros; apply CH; [right|]; assumption).
      specialize (IH CH'). cbn [filter sum_where fold_right]. fold (sum_where (at_cell m c) l).
      unfold at_cell at 1, has_channel. destruct (at_met m e) eqn:A; cbn [andb]; [|exact IH].
      destruct (CH e) as (d & D & _); [left; reflexivity | apply Z.eqb_eq; exact A|]. rewrite D. cbn [filter]. rewrite D.
      destruct (String.eqb d c); cbn [fold_right]; rewrite IH; reflexivity. }
    clear -S1. induction ks as [|k ks IH]; [reflexivity|]. unfold nsum in *. cbn [fold_right map].
    rewrite S1 by (left; reflexivity). rewrite IH by (intros; apply S1; right; assumption). reflexivity.
  - intros e IE. apply filter_In in IE. destruct IE as [IE EM]. apply Z.eqb_eq in EM. destruct (CH e IE EM) as (c & -> & _ & IC). exact IC.
Qed.
Print Assumptions efficiency_adds_up.

Example efficiency_case :
  let ev := [Event 7 (Some "RLO1_CC1") 1; Event 7 (Some "CE") 2; Event 7 (Some "RLO1_CC1") 4; Event 8 (Some "CE") 8] in
  (efficiency [7%Z; 8%Z] ev true 7 "total" == 7)%Q /\ (efficiency [7%Z; 8%Z] ev true 7 "RLO1_CC1" == 5)%Q /\
  (efficiency [7%Z; 8%Z] ev true 7 "CE" == 2)%Q /\ (efficiency [7%Z; 8%Z] ev true 8 "RLO1_CC1" == 0)%Q.
Proof. repeat split; reflexivity. Qed.

(** Transients without a channel count only in the total; a channel with the name of the total
    replaces it. *)
Theorem efficiency_missing_channel_refuted : exists events,
  (efficiency [7%Z] events true 7 "total" == 3)%Q /\
  (nsum (map (efficiency [7%Z] events true 7) (channels_of events)) == 1)%Q.
Proof. exists [Event 7 (Some "CE") 1; Event 7 None 2]. split; reflexivity. Qed.
Print Assumptions efficiency_missing_channel_refuted.
Theorem efficiency_total_name_refuted : exists events,
  (efficiency [7%Z] events false 7 "total" == 3)%Q /\ (efficiency [7%Z] events true 7 "total" == 2)%Q.
Proof. exists [Event 7 (Some "CE") 1; Event 7 (Some "total") 2]. split; reflexivity. Qed.
Print Assumptions efficiency_total_name_refuted.

(** ** C35: rate densities *)
Definition increasing (l : list Q) : Prop :=
  forall a b x y, a < b -> nth_error l a = Some x -> nth_error l b = Some y -> (x < y)%Q.
(** Bin number [i] is (edge i, edge i+1]. *)
Definition bin_holds (edges : list Q) (i : nat) (e : entry) : Prop :=
  exists lo hi z, nth_error edges i = Some lo /\ nth_error edges (S i) = Some hi /\ en_z e = Some z /\ (lo < z <= hi)%Q.

Lemma in_bin_spec : forall lo hi e, in_bin lo hi e = true <-> exists z, en_z e = Some z /\ (lo < z <= hi)%Q.
Proof.
  intros lo hi e. unfold in_bin. destruct (en_z e) as [z|]; [|split; [discriminate | intros (z & Z & _); discriminate]].
  rewrite andb_true_iff, negb_true_iff, Qle_bool_iff. split.
  - intros [A B]. exists z. split; [reflexivity|]. split; [|exact B]. apply Qnot_le_lt. intro C. apply Qle_bool_iff in C. congruence.
  - intros (z0 & E & A & B). assert (z0 = z) as -> by congruence. split; [|exact B].
    destruct (Qle_bool z lo) eqn:C; [|reflexivity]. apply Qle_bool_iff in C. lra.
Qed.

Theorem bins_partition : forall edges e z lo hi n,
  increasing edges -> en_z e = Some z -> length edges = S n -> nth_error edges 0 = Some lo -> nth_error edges n = Some hi ->
  ((lo < z <= hi)%Q -> exists i, i < n /\ bin_holds edges i e /\ forall j, bin_holds edges j e -> j = i) /\
  (~ (lo < z <= hi)%Q -> forall j, ~ bin_holds edges j e).
Proof.
  intros edges e z lo hi n INC Z LE E0 EN. 
  assert (forall i, i <= n -> exists x, nth_error edges i = Some x) as EX.
  { intros i L. destruct (nth_error edges i) as [x|] eqn:K; [exists x; reflexivity|]. apply nth_error_None in K. lia. }
  split.
  - intros [L H].
    assert (forall k, k <= n -> forall x, nth_error edges k = Some x -> (z <= x)%Q -> exists i, i < n /\ bin_holds edges i e) as W.
    { induction k as [|k IH]; intros KN x K ZX.
      - rewrite K in E0. assert (x = lo) by congruence. subst. lra.
      - destruct (EX k ltac:(lia)) as [y Y]. destruct (Qlt_le_dec y z) as [YZ|YZ].
        + exists k. split; [lia|]. exists y, x, z. repeat split; assumption.
        + apply (IH ltac:(lia) y Y YZ). }
    destruct (W n (le_n n) hi EN H) as (i & IN & B). exists i. split; [exact IN|]. split; [exact B|].
    intros j BJ. destruct B as (a & b & z1 & A1 & A2 & A3 & A4). destruct BJ as (c & d & z2 & C1 & C2 & C3 & C4).
    assert (z1 = z /\ z2 = z) as [-> ->] by (split; congruence).
    assert (forall p q x y, p <= q -> nth_error edges p = Some x -> nth_error edges q = Some y -> (x <= y)%Q) as MON.
    { intros p q x y PQ P1 Q1. destruct (Nat.eq_dec p q) as [-> |]; [assert (x = y) as -> by congruence; lra|].
      apply Qlt_le_weak. apply (INC p q); [lia|assumption|assumption]. }
    destruct (Nat.lt_trichotomy j i) as [J|[J|J]]; [|exact J|].
    + assert (d <= a)%Q by (apply (MON (S j) i); [lia|assumption|assumption]). lra.
    + assert (b <= c)%Q by (apply (MON (S i) j); [lia|assumption|assumption]). lra.
  - intros N j (a & b & z1 & A1 & A2 & A3 & A4 & A5). assert (z1 = z) by congruence. subst z1. apply N.
    assert (S j <= n) as JN by (assert (S j < length edges) by (apply nth_error_Some; congruence); lia).
    assert (lo <= a)%Q by (destruct j as [|j]; [assert (a = lo) as -> by congruence; lra | apply Qlt_le_weak; apply (INC 0 (S j)); [lia|assumption|assumption]]).
    assert (b <= hi)%Q by (destruct (Nat.eq_dec (S j) n) as [<- |]; [assert (b = hi) as -> by congruence; lra | apply Qlt_le_weak; apply (INC (S j) n); [lia|assumption|assumption]]).
    lra.
Qed.
Print Assumptions bins_partition.

Definition weight_of (e : entry) : Q := match en_w e with Some q => q | None => 0%Q end.
Definition wsum (l : list entry) : Q := fold_right (fun e acc => weight_of e + acc)%Q 0%Q l.
Lemma nansum_wsum : forall l, (nansum (map en_w l) == wsum l)%Q.
Proof.
  induction l as [|e l IH]; [reflexivity|]. cbn [map nansum fold_right wsum]. fold (nansum (map en_w l)) (wsum l). unfold weight_of.
  destruct (en_w e); rewrite IH; [reflexivity | ring].
Qed.
(** In every bin the channels add up to the total. *)
Theorem rate_channels_add_up : forall entries edges norms i total chans,
  nth_error (rate_density entries edges norms true) i = Some (total, chans) ->
  (total == nsum (map snd chans))%Q /\ NoDup (map fst chans) /\ (forall c, In c (map fst chans) <-> In c (map en_chan entries)).
Proof.
  intros entries edges. induction edges as [|lo [|hi rest] IH]; intros norms i total chans K; [destruct i, norms; discriminate | destruct i, norms; discriminate |].
  destruct norms as [|n ns]; [destruct i; discriminate|]. cbn [rate_density] in K. destruct i as [|i].
  - cbn [nth_error] in K.
    assert (total = rate_total entries lo hi n /\ chans = map (fun ch => (ch, rate_channel entries lo hi n ch)) (distinct (map en_chan entries))) as [-> ->] by (split; congruence).
    rewrite !map_map. cbn [fst snd]. rewrite map_id. split; [|split; [apply distinct_nodup | intro c; apply distinct_in]].
    unfold rate_total, rate_channel. rewrite nansum_wsum. unfold wsum.
    rewrite (sum_by_key entry en_chan weight_of (filter (in_bin lo hi) entries) (distinct (map en_chan entries)) (distinct_nodup _)).
    2:{ intros e I. apply distinct_in. apply in_map. apply filter_In in I. tauto. }
    clear K. induction (distinct (map en_chan entries)) as [|c cs IHc]; [unfold nsum; cbn [map fold_right]; unfold Qdiv; ring|].
    unfold nsum in *. cbn [map fold_right]. rewrite <- IHc. rewrite nansum_wsum. unfold wsum.
    assert (filter (fun e => in_bin lo hi e && String.eqb (en_chan e) c) entries = filter (fun a => String.eqb (en_chan a) c) (filter (in_bin lo hi) entries)) as ->.
    { clear. induction entries as [|e l IH]; [reflexivity|]. cbn [filter]. destruct (in_bin lo hi e); cbn [andb filter]; [|exact IH].
      destruct (String.eqb (en_chan e) c); rewrite IH; reflexivity. }
    unfold Qdiv. ring.
  - apply (IH ns i total chans). exact K.
Qed.
Print Assumptions rate_channels_add_up.

(** Every weight with a redshift in the range is counted exactly once. *)
Theorem rate_conserves : forall entries edges norms channels lo hi n,
  increasing edges -> length edges = S n -> length norms = n -> (forall x, In x norms -> ~ (x == 0)%Q) ->
  nth_error edges 0 = Some lo -> nth_error edges n = Some hi ->
  (nsum (map (fun p => fst (fst p) * snd p) (combine (rate_density entries edges norms channels) norms)) ==
   wsum (filter (in_bin lo hi) entries))%Q.
Proof.
  intros entries edges. induction edges as [|e0 [|e1 rest] IH]; intros norms channels lo hi n INC LE LN NZ E0 EN; [discriminate| |].
  - assert (n = 0) by (cbn in LE; lia). subst n. destruct norms; [|discriminate]. cbn [rate_density combine map nsum fold_right].
    assert (lo = e0 /\ hi = e0) as [-> ->] by (cbn in *; split; congruence).
    assert (filter (in_bin e0 e0) entries = []) as ->; [|reflexivity].
    clear. induction entries as [|e l IH]; [reflexivity|]. cbn [filter]. destruct (in_bin e0 e0 e) eqn:B; [|exact IH].
    apply in_bin_spec in B. destruct B as (z & _ & B). lra.
  - destruct n as [|n]; [discriminate|]. destruct norms as [|x ns]; [discriminate|]. cbn [nth_error] in E0, EN. assert (lo = e0) by congruence. subst e0.
    cbn [rate_density combine map]. unfold nsum at 1. cbn [fold_right]. fold (nsum (map (fun p => fst (fst p) * snd p)%Q (combine (rate_density entries (e1 :: rest) ns channels) ns))).
    assert (increasing (e1 :: rest)) as INC' by (intros a b y z AB A B; apply (INC (S a) (S b)); [lia|exact A|exact B]).
    rewrite (IH ns channels e1 hi n INC' ltac:(cbn in *; lia) ltac:(cbn in *; lia) ltac:(intros; apply NZ; right; assumption) eq_refl EN).
    cbn [fst snd]. unfold rate_total. rewrite nansum_wsum.
    assert (~ (x == 0)%Q) as X0 by (apply NZ; left; reflexivity).
    assert (wsum (filter (in_bin lo e1) entries) / x * x == wsum (filter (in_bin lo e1) entries))%Q as -> by (field; exact X0).
    assert (lo < e1)%Q as L1 by (apply (INC 0 1); [lia|reflexivity|reflexivity]).
    assert (e1 <= hi)%Q as L2.
    { destruct n as [|n]; [cbn in EN; assert (e1 = hi) as -> by congruence; lra|]. apply Qlt_le_weak. apply (INC 1 (S (S n))); [lia|reflexivity|exact EN]. }
    clear -L1 L2. induction entries as [|e l IH]; [reflexivity|]. cbn [filter].
    destruct (in_bin lo e1 e) eqn:B1, (in_bin e1 hi e) eqn:B2, (in_bin lo hi e) eqn:B3; cbn [wsum fold_right]; fold (wsum (filter (in_bin lo e1) l)) (wsum (filter (in_bin e1 hi) l)) (wsum (filter (in_bin lo hi) l));
      try (rewrite <- IH; ring); exfalso;
      repeat match goal with
      | H : in_bin _ _ _ = true |- _ => apply in_bin_spec in H; destruct H as (? & ? & ? & ?)
      end.
    + assert (x = x0) by congruence. assert (x1 = x0) by congruence. subst. lra.
    + assert (x = x0) by congruence. subst. lra.
    + enough (in_bin lo hi e = true) by congruence. apply in_bin_spec. exists x. split; [assumption|lra].
    + enough (in_bin lo hi e = true) by congruence. apply in_bin_spec. exists x. split; [assumption|lra].
    + destruct (Qlt_le_dec e1 x) as [C|C].
      * enough (in_bin e1 hi e = true) by congruence. apply in_bin_spec. exists x. split; [assumption|lra].
      * enough (in_bin lo e1 e = true) by congruence. apply in_bin_spec. exists x. split; [assumption|lra].
Qed.
Print Assumptions rate_conserves.

Example rate_case :
  let entries := [Entry "CE" (Some 1) (Some 4); Entry "RLO1" (Some (1#2)) (Some 6); Entry "CE" (Some 2) (Some 8);
                  Entry "CE" None (Some 5); Entry "RLO1" (Some 1) None; Entry "CE" (Some 0) (Some 3)]%Q in
  map (fun p => (Qred (fst p), map (fun c => (fst c, Qred (snd c))) (snd p))) (rate_density entries [0; 1; 3]%Q [2; 4]%Q true) =
  [(5%Q, [("CE", 2%Q); ("RLO1", 3%Q)]); (2%Q, [("CE", 2%Q); ("RLO1", 0%Q)])].
Proof. reflexivity. Qed.

(** Events at or below the first edge (redshift 0) and with no redshift are in no bin. *)
Theorem rate_present_day_refuted : exists entries edges,
  increasing edges /\ (exists e, In e entries /\ en_z e = Some 0%Q /\ nth_error edges 0 = Some 0%Q) /\
  (nansum (map en_w entries) == 3)%Q /\
  map (fun p => Qred (fst p)) (rate_density entries edges [1; 1]%Q false) = [0%Q; 0%Q].
Proof.
  exists [Entry "CE" (Some 0) (Some 3)]%Q, [0; 1; 100]%Q. split.
  - intros a b x y AB A B. destruct a as [|[|[|a]]], b as [|[|[|b]]]; cbn in A, B; try lia; try discriminate; try (destruct b; discriminate); try (destruct a; discriminate);
      injection A as <-; injection B as <-; reflexivity.
  - split; [|split; reflexivity]. exists (Entry "CE" (Some 0) (Some 3))%Q. split; [left; reflexivity|]. split; reflexivity.
Qed.
Print Assumptions rate_present_day_refuted.
