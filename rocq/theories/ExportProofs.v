(** Proofs about Population.export_selection. *)
From Coq Require Import String List ZArith QArith Bool Lia PeanoNat.
From Verif Require Import PyBase PyList PyStr TableModel TableSpec TableProofs ExportModel.
Import ListNotations.
Open Scope nat_scope.
Open Scope list_scope.

Definition contents {A} (o : option (table A)) : table A := match o with Some t => t | None => [] end.

Lemma contents_append : forall A (o : option (table A)) rows,
  contents (append_rows o rows) = contents o ++ rows.
Proof. intros A [t|] [|r rows]; cbn; try rewrite app_nil_r; reflexivity. Qed.

Lemma rows_of_app : forall A i (a b : table A), rows_of i (a ++ b) = rows_of i a ++ rows_of i b.
Proof. intros. unfold rows_of. rewrite filter_app, map_app. reflexivity. Qed.

Lemma rows_of_none : forall A i (t : table A), ~ In i (keys t) -> rows_of i t = [].
Proof.
  intros A i t. induction t as [|r t IH]; intro N; [reflexivity|].
  unfold rows_of. cbn [filter]. destruct (Z.eqb_spec (fst r) i) as [E|E].
  - exfalso. apply N. left. exact E.
  - apply IH. intro I. apply N. right. exact I.
Qed.

Lemma rows_of_filter : forall A i (p : Z -> bool) (t : table A), p i = true ->
  rows_of i (filter (fun r => p (fst r)) t) = rows_of i t.
Proof.
  intros A i p t P. unfold rows_of. induction t as [|r t IH]; [reflexivity|]. cbn [filter].
  destruct (p (fst r)) eqn:E; cbn [filter]; destruct (Z.eqb_spec (fst r) i) as [EI|EI]; cbn [map]; rewrite ?IH; try reflexivity.
  congruence.
Qed.

Section Pieces.
  Context {A : Type}.
  Variable read : list Z -> result (table A).
  Variable want : Z -> list A.
  Variable d : list (Z * Z).

  Definition reads_right (p : list Z) := exists rows, read p = Ok rows /\
    (forall r, In r rows -> In (fst r) p) /\ (forall i, In i p -> rows_of i rows = want i).

  Lemma write_pieces_ok : forall ps out, NoDup (concat ps) -> (forall p, In p ps -> reads_right p) ->
    exists out' raw, write_pieces read d ps out = (out', None) /\
      contents out' = contents out ++ map (reindex_row d) raw /\
      (forall r, In r raw -> In (fst r) (concat ps)) /\
      (forall i, In i (concat ps) -> rows_of i raw = want i).
  Proof using Type.
    induction ps as [|p ps IH]; intros out ND R.
    - exists out, []. cbn. rewrite app_nil_r. split; [reflexivity|]. split; [reflexivity|]. split; intros; contradiction.
    - destruct (R p (or_introl eq_refl)) as (rows & E & IN & W). cbn [write_pieces]. rewrite E.
      cbn [concat] in ND. assert (NoDup (concat ps) /\ (forall i, In i p -> ~ In i (concat ps))) as [ND2 DJ].
      { clear -ND. induction p as [|x p IHp]; [split; [exact ND | intros i []]|].
        cbn in ND. inversion ND as [|? ? NI ND']; subst. destruct (IHp ND') as [A B]. split; [exact A|].
        intros i [<-|I]; [|auto]. intro I. apply NI. apply in_or_app. right. exact I. }
      destruct (IH (append_rows out (map (reindex_row d) rows)) ND2) as (out' & raw & E2 & C & IN2 & W2).
      { intros q Q. apply R. right. exact Q. }
      exists out', (rows ++ raw). split; [exact E2|]. split; [|split].
      + rewrite C, contents_append, map_app, app_assoc. reflexivity.
      + intros r I. apply in_app_or in I as [I|I]; cbn [concat]; apply in_or_app; [left; auto | right; auto].
      + intros i I. rewrite rows_of_app. cbn [concat] in I.
        destruct (in_dec Z.eq_dec i p) as [Ip|Np].
        * rewrite W by exact Ip. rewrite (rows_of_none A i raw), app_nil_r; [reflexivity|].
          intro K. apply in_map_iff in K as (r & <- & K). apply (DJ (fst r) Ip). apply IN2. exact K.
        * apply in_app_or in I as [I|I]; [contradiction|].
          rewrite (rows_of_none A i rows), W2; [reflexivity | exact I|].
          intro K. apply in_map_iff in K as (r & <- & K). apply Np. apply IN. exact K.
  Qed.
End Pieces.

(** ** Renumbering *)
Lemma last_write_nodup : forall (l : list (Z * Z)) k v, NoDup (map fst l) -> In (k, v) l ->
  last_write Z.eqb l k = Some v.
Proof.
  induction l as [|[k0 v0] l IH]; intros k v ND I; [destruct I|].
  cbn in ND. inversion ND as [|? ? NI ND']; subst. rewrite last_write_cons.
  destruct I as [E|I].
  - injection E as -> ->. rewrite Z.eqb_refl.
    assert (last_write Z.eqb l k = None) as ->; [|reflexivity].
    clear -NI. induction l as [|[k1 v1] l IH]; [reflexivity|]. rewrite last_write_cons, IH.
    + destruct (Z.eqb_spec k k1) as [->|]; [|reflexivity]. exfalso. apply NI. left. reflexivity.
    + intro I. apply NI. right. exact I.
  - rewrite (IH k v ND' I). reflexivity.
Qed.

Lemma combine_fst : forall A B (l1 : list A) (l2 : list B), length l1 = length l2 -> map fst (combine l1 l2) = l1.
Proof. induction l1 as [|x l1 IH]; intros [|y l2] L; try discriminate; [reflexivity|]. cbn. rewrite IH; [reflexivity | cbn in L; lia]. Qed.

Lemma zrange_length : forall a b, length (zrange a b) = Z.to_nat (b - a).
Proof. intros. unfold zrange. rewrite map_length, seq_length. reflexivity. Qed.

Lemma nth_zrange : forall a b k, k < Z.to_nat (b - a) -> nth_error (zrange a b) k = Some (a + Z.of_nat k)%Z.
Proof. intros. unfold zrange. rewrite nth_map_error, nth_seq_error by assumption. reflexivity. Qed.

Lemma nth_combine : forall A B (l1 : list A) (l2 : list B) k x y,
  nth_error l1 k = Some x -> nth_error l2 k = Some y -> nth_error (combine l1 l2) k = Some (x, y).
Proof.
  induction l1 as [|a l1 IH]; intros [|b l2] [|k] x y; cbn; intros E1 E2; try discriminate; [congruence|].
  apply IH; assumption.
Qed.

Lemma reindex_dget : forall last sel k i, NoDup sel -> nth_error sel k = Some i ->
  dget Z.eqb (reindex last sel) i = Some (last + 1 + Z.of_nat k)%Z.
Proof.
  intros last sel k i ND E. unfold reindex. cbv zeta.
  assert (k < length sel) as K by (apply nth_error_Some; congruence).
  set (rng := if Z.eqb last (-1) then _ else _).
  assert (length rng = length sel /\ nth_error rng k = Some (last + 1 + Z.of_nat k)%Z) as [L N].
  { unfold rng. destruct (Z.eqb_spec last (-1)) as [->|NE]; rewrite zrange_length, nth_zrange by lia; split; try lia; f_equal; lia. }
  rewrite (dget_dset_all Z.eqb_spec), (last_write_nodup _ i (last + 1 + Z.of_nat k)%Z); [reflexivity | |].
  - rewrite combine_fst by lia. exact ND.
  - eapply nth_error_In. apply nth_combine; [exact E | exact N].
Qed.

Lemma renumbered : forall A last sel (raw : table A) want, NoDup sel ->
  (forall r, In r raw -> In (fst r) sel) -> (forall i, In i sel -> rows_of i raw = want i) ->
  let new := map (reindex_row (reindex last sel)) raw in
  (forall k i, nth_error sel k = Some i -> rows_of (last + 1 + Z.of_nat k)%Z new = want i) /\
  (forall r, In r new -> (last + 1 <= fst r < last + 1 + Z.of_nat (length sel))%Z).
Proof.
  intros A last sel raw want ND IN W new. split.
  - intros k i E. rewrite <- (W i) by (eapply nth_error_In; exact E). unfold new. clear W new.
    induction raw as [|r raw IH]; [reflexivity|].
    specialize (IH (fun r I => IN r (or_intror I))). cbn [map].
    unfold rows_of in *. cbn [filter map].
    destruct (In_nth_error sel (fst r) (IN r (or_introl eq_refl))) as (k' & E').
    unfold reindex_row at 1 3. cbn [fst]. rewrite (reindex_dget last sel k' (fst r) ND E').
    destruct (Z.eqb_spec (last + 1 + Z.of_nat k') (last + 1 + Z.of_nat k)) as [EK|EK].
    + assert (k' = k) as -> by lia. assert (fst r = i) as -> by congruence. rewrite Z.eqb_refl. cbn [map snd]. f_equal. exact IH.
    + destruct (Z.eqb_spec (fst r) i) as [EI|_]; [|exact IH].
      exfalso. apply EK. assert (k' = k); [|lia]. subst i.
      apply (proj1 (NoDup_nth_error sel) ND); [apply nth_error_Some; congruence | congruence].
  - intros r I. unfold new in I. apply in_map_iff in I as (q & <- & I).
    destruct (In_nth_error sel (fst q) (IN q I)) as (k & E).
    unfold reindex_row. cbn [fst]. rewrite (reindex_dget last sel k (fst q) ND E).
    assert (k < length sel) by (apply nth_error_Some; congruence). lia.
Qed.

(** ** Reading *)
Lemma rows_of_flat : forall A (t : table A) l i, NoDup l -> In i l ->
  rows_of i (flat_map (fun i => filter (fun r => Z.eqb (fst r) i) t) l) = rows_of i t.
Proof.
  intros A t l i ND I. induction l as [|x l IH]; [destruct I|]. inversion ND as [|? ? NI ND']; subst.
  cbn [flat_map]. rewrite rows_of_app. destruct I as [->|I].
  - rewrite (rows_of_filter A i (fun j => Z.eqb j i)) by apply Z.eqb_refl.
    rewrite (rows_of_none A i (flat_map _ l)), app_nil_r; [reflexivity|].
    intro K. apply in_map_iff in K as (r & E & K). apply in_flat_map in K as (j & J & F).
    apply filter_In in F as [_ F]. apply Z.eqb_eq in F. congruence.
  - rewrite (rows_of_none A i (filter _ t)); [cbn; apply IH; assumption|].
    intro K. apply in_map_iff in K as (r & E & K). apply filter_In in K as [_ F]. apply Z.eqb_eq in F. congruence.
Qed.

Lemma loc_right : forall A (t : table A) p, NoDup p -> (forall i, In i p -> In i (keys t)) ->
  reads_right (loc t) (fun i => rows_of i t) p.
Proof.
  intros A t p ND H. unfold reads_right, loc.
  assert (forallb (fun i => zin i (keys t)) p = true) as ->.
  { apply forallb_forall. intros i I. apply zin_iff. auto. }
  eexists. split; [reflexivity|]. split.
  - intros r I. apply in_flat_map in I as (j & J & F). apply filter_In in F as [_ F]. apply Z.eqb_eq in F. congruence.
  - intros i I. apply rows_of_flat; assumption.
Qed.

Lemma select_in_right : forall A c (t : table A) p, 1 <= c -> p <> [] -> (forall i, In i p -> In i (keys t)) ->
  exists rows, select_in c t p = Ok rows /\ (forall r, In r rows -> In (fst r) p) /\
    (forall i, In i p -> rows_of i rows = rows_of i t).
Proof.
  intros A c t p C N H. unfold select_in. destruct p as [|x p]; [congruence|].
  unfold select_where. rewrite pd_concat_chunks by exact C.
  destruct (filter (fun r => zin (fst r) (x :: p)) t) as [|r l] eqn:E.
  - exfalso. specialize (H x (or_introl eq_refl)). apply in_map_iff in H as (r & <- & I).
    assert (In r []) as F; [|exact F]. rewrite <- E. apply filter_In. split; [exact I|]. apply zin_iff. left. reflexivity.
  - rewrite <- E. eexists. split; [reflexivity|]. split.
    + intros q I. apply filter_In in I as [_ F]. apply zin_iff in F. exact F.
    + intros i I. apply (rows_of_filter A i (fun j => zin j (x :: p))). apply zin_iff. exact I.
Qed.

Lemma history_right : forall A (h : history A) p, 1 <= h_chunk h -> p <> [] ->
  (forall i, In i p -> In i (keys (h_rows h))) ->
  reads_right (fun l => rows_only (history_get h (KInts l))) (fun i => rows_of i (h_rows h)) p.
Proof.
  intros A h p C N H. destruct (select_in_right A _ _ p C N H) as (rows & E & IN & W).
  exists rows. split; [|split; assumption]. cbn [history_get]. destruct p; [congruence|]. rewrite E. reflexivity.
Qed.

Lemma NoDup_mid : forall A (a p b : list A), NoDup (a ++ p ++ b) -> NoDup p.
Proof.
  induction a as [|x a IH]; intros p b ND.
  - cbn in ND. induction p as [|x p IHp]; [constructor|]. cbn in ND. inversion ND as [|? ? NI ND']; subst.
    constructor; [|auto]. intro I. apply NI. apply in_or_app. left. exact I.
  - cbn in ND. inversion ND; subst. eapply IH. eassumption.
Qed.

Lemma pieces_facts : forall c (sel : list Z), 1 <= c -> NoDup sel ->
  NoDup (concat (chunks c sel)) /\ (forall p, In p (chunks c sel) -> p <> [] /\ NoDup p /\ (forall i, In i p -> In i sel)).
Proof.
  intros c sel C ND. rewrite concat_chunks by exact C. split; [exact ND|]. intros p P.
  split; [eapply chunks_nonempty; eassumption|].
  assert (exists a b, sel = a ++ p ++ b) as (a & b & ->).
  { rewrite <- (concat_chunks Z c sel C). apply in_split in P as (l1 & l2 & ->).
    exists (concat l1), (concat l2). rewrite concat_app. reflexivity. }
  split.
  - apply NoDup_mid in ND. exact ND.
  - intros i I. apply in_or_app. right. apply in_or_app. left. exact I.
Qed.

(** ** Masses *)
Definition total (f : mass -> Q) (i : Z) (t : mass_table) : Q :=
  fold_right (fun r acc => if Z.eqb (fst r) i then (f (snd r) + acc)%Q else acc) 0%Q t.

Lemma total_app : forall f i a b, (total f i (a ++ b) == total f i a + total f i b)%Q.
Proof.
  intros f i a b. induction a as [|r a IH]; unfold total in *; cbn [app fold_right]; [ring|].
  destruct (Z.eqb (fst r) i); [|exact IH]. rewrite IH. ring.
Qed.

Lemma total_nodup : forall f i (l : list Z) (g : Z -> mass), NoDup l ->
  (total f i (map (fun j => (j, g j)) l) == if zin i l then f (g i) else 0)%Q.
Proof.
  intros f i l g ND. induction l as [|x l IH]; [reflexivity|]. inversion ND as [|? ? NI ND']; subst.
  cbn [map total fold_right fst snd]. fold (total f i (map (fun j => (j, g j)) l)).
  unfold zin in *. cbn [inb]. destruct (Z.eqb_spec x i) as [->|NE].
  - rewrite Z.eqb_refl. rewrite (IH ND'). fold (zin i l). destruct (zin i l) eqn:Z; [apply zin_iff in Z; contradiction|]. ring.
  - destruct (Z.eqb_spec i x); [congruence|]. apply IH. exact ND'.
Qed.

Lemma total_none : forall f i t, ~ In i (keys t) -> (total f i t == 0)%Q.
Proof.
  intros f i t. induction t as [|r t IH]; intro N; [reflexivity|]. cbn.
  destruct (Z.eqb_spec (fst r) i) as [E|E]; [exfalso; apply N; left; exact E|].
  apply IH. intro I. apply N. right. exact I.
Qed.

Lemma group_sum_total : forall f i t,
  (forall a b, (f (mass_add a b) == f a + f b)%Q) -> (f no_mass == 0)%Q ->
  (total f i (group_sum t) == total f i t)%Q.
Proof.
  intros f i t AD Z0. unfold group_sum.
  rewrite (total_nodup f i (sorted_unique (keys t))) by apply ascending_nodup, sorted_unique_asc.
  destruct (zin i (sorted_unique (keys t))) eqn:Z.
  - clear Z. induction t as [|r t IH]; [exact Z0|]. cbn [fold_right total].
    destruct (Z.eqb (fst r) i); [|exact IH]. rewrite AD, IH. reflexivity.
  - symmetry. apply total_none. intro I. apply sorted_unique_in in I. apply zin_iff in I. congruence.
Qed.
