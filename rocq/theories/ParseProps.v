(** How many binaries of a population have the same evolution (ParseModel): C191. *)
From Coq Require Import List Bool ZArith QArith Permutation Lia Lqa.
From Verif Require Import PyBase FromRunProofs ParseModel.
Import ListNotations.
Open Scope list_scope.

Section P.
Context {A H : Type}.
Variable hash : list A -> H.
Variable Heqb : H -> H -> bool.
Hypothesis Heqb_spec : forall x y, reflect (x = y) (Heqb x y).
Variable dec : forall x y : list A, {x = y} + {x <> y}.

(** ** The specification *)

(** The rows of a binary, the binaries of a table, and those with a given evolution *)
Definition evolution_of (l : list (Z * A)) (i : Z) : list A := map snd (filter (fun r => Z.eqb (fst r) i) l).
Definition binaries (l : list (Z * A)) : list Z := nodup Z.eq_dec (map fst l).
Definition with_evolution (l : list (Z * A)) (e : list A) : list Z := filter (fun i => if dec (evolution_of l i) e then true else false) (binaries l).
(** The rows of each binary follow each other *)
Definition contiguous (l : list (Z * A)) : Prop :=
  forall l1 l2 l3 l4 i j a b c, l = l1 ++ (i, a) :: l2 ++ (j, b) :: l3 ++ (i, c) :: l4 -> i = j.
(** The hash tells the evolutions of the table apart *)
Definition no_collision (l : list (Z * A)) : Prop :=
  forall i j, In i (binaries l) -> In j (binaries l) -> hash (evolution_of l i) = hash (evolution_of l j) -> evolution_of l i = evolution_of l j.

(** ** The groups which are visited *)

Definition pairs (l : list (Z * A)) : list (Z * list A) := map (fun i => (i, evolution_of l i)) (binaries l).
Lemma insert_perm i l : Permutation (insert i l) (i :: l).
Proof. induction l as [|j l IH]; [reflexivity|]. cbn. destruct (Z.leb i j); [reflexivity|]. rewrite IH. apply perm_swap. Qed.
Lemma sort_perm l : Permutation (fold_right insert [] l) l.
Proof. induction l as [|i l IH]; [reflexivity|]. cbn. rewrite insert_perm. now apply perm_skip. Qed.
Lemma groups_perm l : Permutation (groups l) (pairs l).
Proof. unfold groups, pairs. apply Permutation_map, sort_perm. Qed.
Lemma in_binaries i l : In i (binaries l) <-> exists a, In (i, a) l.
Proof. unfold binaries. rewrite nodup_In, in_map_iff. split; [intros ([j a] & <- & I); now exists a|intros (a & I); now exists (i, a)]. Qed.
Lemma evolution_app l m i : evolution_of (l ++ m) i = evolution_of l i ++ evolution_of m i.
Proof. unfold evolution_of. now rewrite filter_app, map_app. Qed.
Lemma evolution_none l i : ~ In i (binaries l) -> evolution_of l i = [].
Proof.
  intros N. unfold evolution_of. induction l as [|[j a] l IH]; [reflexivity|]. cbn. destruct (Z.eqb_spec j i) as [->|NE].
  - exfalso. apply N. apply in_binaries. exists a. now left.
  - apply IH. intros K. apply N. apply in_binaries in K as (b & K). apply in_binaries. exists b. now right.
Qed.
Lemma evolution_filter l i (f : Z -> bool) : f i = true -> evolution_of (filter (fun r => f (fst r)) l) i = evolution_of l i.
Proof.
  intros F. unfold evolution_of. induction l as [|[j a] l IH]; [reflexivity|]. cbn. destruct (f j) eqn:J; cbn; destruct (Z.eqb_spec j i) as [->|NE]; cbn; try congruence; now rewrite IH.
Qed.
Lemma nodup_both {B} (l m : list B) : NoDup l -> NoDup m -> (forall x, In x l -> ~ In x m) -> NoDup (l ++ m).
Proof.
  induction 1 as [|x l N ND IH]; intros M D; [exact M|]. cbn. constructor; [|apply IH; [exact M|intros y I; apply D; now right]].
  intros K. apply in_app_or in K as [K|K]; [contradiction|]. exact (D x (or_introl eq_refl) K).
Qed.
(** The binaries of two tables that share none *)
Lemma pairs_split l m n : (forall i, In i (binaries l) <-> In i (binaries m) \/ In i (binaries n)) -> (forall i, In i (binaries m) -> ~ In i (binaries n)) ->
  (forall i, In i (binaries m) -> evolution_of m i = evolution_of l i) -> (forall i, In i (binaries n) -> evolution_of n i = evolution_of l i) ->
  Permutation (pairs l) (pairs m ++ pairs n).
Proof.
  intros HI HD HM HN. unfold pairs. 
  rewrite (map_ext_in (fun i => (i, evolution_of m i)) (fun i => (i, evolution_of l i))) by (intros i I; now rewrite HM).
  rewrite (map_ext_in (fun i => (i, evolution_of n i)) (fun i => (i, evolution_of l i))) by (intros i I; now rewrite HN).
  rewrite <- map_app. apply Permutation_map. apply NoDup_Permutation.
  - apply NoDup_nodup.
  - apply nodup_both; [apply NoDup_nodup|apply NoDup_nodup|exact HD].
  - intros i. rewrite in_app_iff. apply HI.
Qed.
Definition visited_last (rdf : list (Z * A)) : list (Z * list A) := match rdf with [] => [] | (i, _) :: _ => [(i, map snd rdf)] end.
Fixpoint visited (chunks : list (list (Z * A))) (rdf : list (Z * A)) : list (Z * list A) :=
  match chunks with
  | [] => visited_last rdf
  | c :: r => match rev (rdf ++ c) with
              | [] => []
              | (j, _) :: _ => groups (filter (fun x => negb (Z.eqb (fst x) j)) (rdf ++ c)) ++ visited r (filter (fun x => Z.eqb (fst x) j) (rdf ++ c))
              end
  end.
Definition single (l : list (Z * A)) : Prop := exists j, forall i a, In (i, a) l -> i = j.
Lemma single_pairs l : single l -> visited_last l = pairs l.
Proof.
  intros (j & S). destruct l as [|[i a] l]; [reflexivity|]. assert (i = j) as -> by (apply (S i a); now left). cbn [visited_last].
  assert (B : binaries ((j, a) :: l) = [j]).
  { unfold binaries. cbn [map fst nodup]. assert (K : forall m : list (Z * A), (forall i b, In (i, b) m -> i = j) -> nodup Z.eq_dec (map fst m) = [] \/ nodup Z.eq_dec (map fst m) = [j] /\ In j (map fst m)).
    { induction m as [|[k b] m IH]; intros HM; [now left|]. assert (k = j) as -> by (apply (HM k b); now left). right. cbn [map fst nodup]. destruct IH as [E|[E I]]; [intros i b' I; apply (HM i b'); now right| |].
      - destruct (in_dec Z.eq_dec j (map fst m)) as [I|N]; [|rewrite E; split; [reflexivity|now left]]. apply (nodup_In Z.eq_dec) in I. now rewrite E in I.
      - destruct (in_dec Z.eq_dec j (map fst m)); [|contradiction]. split; [exact E|now left]. }
    destruct (K l) as [E|[E I]]; [intros i b I; apply (S i b); now right| |].
    - destruct (in_dec Z.eq_dec j (map fst l)) as [I|N]; [|now rewrite E]. apply (nodup_In Z.eq_dec) in I. now rewrite E in I.
    - destruct (in_dec Z.eq_dec j (map fst l)); [exact E|contradiction]. }
  unfold pairs. rewrite B. cbn [map]. f_equal. f_equal. unfold evolution_of. symmetry.
  assert (F : forall m : list (Z * A), (forall i b, In (i, b) m -> i = j) -> filter (fun r : Z * A => Z.eqb (fst r) j) m = m).
  { induction m as [|[k b] m IH]; intros HM; [reflexivity|]. cbn. assert (k = j) as -> by (apply (HM k b); now left). rewrite Z.eqb_refl. f_equal. apply IH. intros i b' I. apply (HM i b'). now right. }
  change (snd (j, a) :: map snd l) with (map snd ((j, a) :: l)). f_equal. now apply F.
Qed.
Lemma contiguous_tail l m : contiguous (l ++ m) -> contiguous m.
Proof. intros C l1 l2 l3 l4 i j a b c E. apply (C (l ++ l1) l2 l3 l4 i j a b c). now rewrite E, app_assoc. Qed.
Lemma visited_perm : forall chunks rdf, single rdf -> contiguous (rdf ++ concat chunks) -> (forall c, In c chunks -> c <> []) -> Permutation (visited chunks rdf) (pairs (rdf ++ concat chunks)).
Proof.
  induction chunks as [|c chunks IH]; intros rdf S C N.
  - cbn. rewrite app_nil_r. now rewrite single_pairs.
  - cbn [concat] in C. cbn [visited concat]. rewrite app_assoc in C |- *. assert (ND : rdf ++ c <> []) by (intros K; apply app_eq_nil in K as [_ K]; apply (N c); [now left|exact K]).
    destruct (rev (rdf ++ c)) as [|[j z] t] eqn:R.
    { exfalso. apply ND. rewrite <- (rev_involutive (rdf ++ c)), R. reflexivity. }
    assert (D : rdf ++ c = rev t ++ [(j, z)]) by (rewrite <- (rev_involutive (rdf ++ c)), R; reflexivity).
    set (d := rdf ++ c) in *. set (f1 := filter (fun x => negb (Z.eqb (fst x) j)) d). set (f2 := filter (fun x => Z.eqb (fst x) j) d). set (rest := concat chunks) in *.
    (* a binary of the chunk other than the last one does not come again *)
    assert (GONE : forall i a b, In (i, a) d -> i <> j -> ~ In (i, b) rest).
    { intros i a b I NE K. rewrite D in I. apply in_app_or in I as [I|[I|[]]]; [|congruence]. apply in_split in I as (x1 & x2 & X). apply in_split in K as (y1 & y2 & Y).
      apply NE. apply (C x1 x2 y1 y2 i j a z b). rewrite D, X, Y. rewrite <- !app_assoc. reflexivity. }
    assert (S2 : single f2) by (exists j; intros i a I; apply filter_In in I as [_ E]; now apply Z.eqb_eq in E).
    assert (C2 : contiguous (f2 ++ rest)).
    { intros l1 l2 l3 l4 i k a b c0 E. 
      destruct (Z.eq_dec k j) as [->|NK].
      - (* the middle row is of the last binary *)
        destruct (Z.eq_dec i j) as [->|NI]; [reflexivity|]. exfalso.
        assert (ZS : forall (u v w x : list (Z * A)), u ++ v = w ++ x -> (exists y, u = w ++ y /\ x = y ++ v) \/ (exists y, w = u ++ y /\ v = y ++ x)).
        { induction u as [|p u IHu]; intros v w x Q; [right; exists w; now split|]. destruct w as [|q w]; [left; exists (p :: u); now split|]. cbn in Q. assert (p = q) as -> by congruence.
          destruct (IHu v w x) as [(y & Y1 & Y2)|(y & Y1 & Y2)]; [congruence|left; exists y; split; [cbn; now rewrite Y1|exact Y2]|right; exists y; split; [cbn; now rewrite Y1|exact Y2]]. }
        destruct (ZS _ _ _ _ E) as [(y & Y1 & Y2)|(y & Y1 & Y2)].
        + destruct y as [|p y].
          * cbn in Y2. apply NI. apply (contiguous_tail d rest C [] l2 l3 l4 i j a b c0). cbn. now rewrite <- Y2.
          * cbn in Y2. assert (p = (i, a)) as -> by congruence. assert (IN : In (i, a) f2) by (rewrite Y1; apply in_or_app; right; now left). apply filter_In in IN as [_ IN]. apply Z.eqb_eq in IN. cbn in IN. congruence.
        + apply NI. apply (contiguous_tail d rest C y l2 l3 l4 i j a b c0). exact Y2.
      - (* the middle row is of another binary, and so it and what follows are in the rest *)
        assert (ZS : forall (u v w x : list (Z * A)), u ++ v = w ++ x -> (exists y, u = w ++ y /\ x = y ++ v) \/ (exists y, w = u ++ y /\ v = y ++ x)).
        { induction u as [|p u IHu]; intros v w x Q; [right; exists w; now split|]. destruct w as [|q w]; [left; exists (p :: u); now split|]. cbn in Q. assert (p = q) as -> by congruence.
          destruct (IHu v w x) as [(y & Y1 & Y2)|(y & Y1 & Y2)]; [congruence|left; exists y; split; [cbn; now rewrite Y1|exact Y2]|right; exists y; split; [cbn; now rewrite Y1|exact Y2]]. }
        destruct (ZS _ _ _ _ E) as [(y & Y1 & Y2)|(y & Y1 & Y2)].
        + destruct y as [|p y].
          * cbn in Y2. apply (contiguous_tail d rest C [] l2 l3 l4 i k a b c0). cbn. now rewrite <- Y2.
          * cbn in Y2. assert (p = (i, a)) as -> by congruence. assert (IN : In (i, a) f2) by (rewrite Y1; apply in_or_app; right; now left).
            apply filter_In in IN as [IN IJ]. apply Z.eqb_eq in IJ. cbn in IJ. subst i.
            assert (KR : In (k, b) rest).
            { assert (I : In (k, b) (f2 ++ rest)) by (rewrite E; apply in_or_app; right; right; apply in_or_app; right; now left). apply in_app_or in I as [I|I]; [|exact I].
              apply filter_In in I as [_ I]. apply Z.eqb_eq in I. cbn in I. congruence. }
            (* the part after [(j, a)] splits between the rest of f2 and the rest *)
            assert (Q2 : y ++ rest = l2 ++ (k, b) :: l3 ++ (j, c0) :: l4) by congruence.
            destruct (ZS _ _ _ _ Q2) as [(w & W1 & W2)|(w & W1 & W2)].
            -- destruct w as [|q w].
               ++ cbn in W2. exfalso. apply NK. symmetry. apply (C (rev t) [] l3 l4 j k z b c0). rewrite D, <- W2, <- app_assoc. reflexivity.
               ++ cbn in W2. assert (q = (k, b)) as -> by congruence. exfalso. assert (I : In (k, b) f2) by (rewrite Y1; apply in_or_app; right; right; rewrite W1; apply in_or_app; right; now left).
                  apply filter_In in I as [_ I]. apply Z.eqb_eq in I. cbn in I. congruence.
            -- exfalso. apply NK. symmetry. apply (C (rev t) w l3 l4 j k z b c0). rewrite D, W2, <- app_assoc. reflexivity.
        + apply (contiguous_tail d rest C y l2 l3 l4 i k a b c0). exact Y2. }
    rewrite (IH f2 S2 C2) by (intros c' I; apply N; now right). rewrite groups_perm. symmetry. fold f1.
    assert (F1 : forall i, In i (binaries f1) <-> In i (binaries d) /\ i <> j).
    { intros i. rewrite !in_binaries. split.
      - intros (a & I). apply filter_In in I as [I E]. split; [now exists a|]. apply negb_true_iff, Z.eqb_neq in E. exact E.
      - intros [(a & I) NE]. exists a. apply filter_In. split; [exact I|]. apply negb_true_iff, Z.eqb_neq. exact NE. }
    assert (F2 : forall i, In i (binaries f2) <-> i = j).
    { intros i. rewrite in_binaries. split; [intros (a & I); apply filter_In in I as [_ E]; now apply Z.eqb_eq in E|]. intros ->. exists z. apply filter_In. split; [|apply Z.eqb_refl].
      rewrite D. apply in_or_app. right. now left. }
    assert (AP : forall (l m : list (Z * A)) i, In i (binaries (l ++ m)) <-> In i (binaries l) \/ In i (binaries m)).
    { intros l m i. rewrite !in_binaries. split; [intros (a & I); apply in_app_or in I as [I|I]; eauto|intros [(a & I)|(a & I)]; exists a; apply in_or_app; auto]. }
    assert (JD : In j (binaries d)) by (apply in_binaries; exists z; rewrite D; apply in_or_app; right; now left).
    assert (GB : forall i, In i (binaries f1) -> ~ In i (binaries rest)).
    { intros i I K. apply F1 in I as [I NE]. apply in_binaries in I as (a & I). apply in_binaries in K as (b & K). exact (GONE i a b I NE K). }
    apply pairs_split.
    + intros i. rewrite !AP, F1, F2. destruct (Z.eq_dec i j) as [->|]; tauto.
    + intros i I. rewrite AP, F2. intros [->|K]; [now apply F1 in I as [_ I]|exact (GB i I K)].
    + intros i I. rewrite evolution_app, (evolution_none rest i (GB i I)), app_nil_r. apply F1 in I as [_ NE].
      apply (evolution_filter d i (fun x => negb (Z.eqb x j))). apply negb_true_iff, Z.eqb_neq. exact NE.
    + intros i I. rewrite !evolution_app. f_equal. destruct (Z.eq_dec i j) as [->|NE]; [apply (evolution_filter d j (fun x => Z.eqb x j)); apply Z.eqb_refl|].
      rewrite (evolution_none f2 i) by (rewrite F2; exact NE). rewrite evolution_none; [reflexivity|]. intros K. apply AP in I as [I|I]; [apply F2 in I; contradiction|].
      apply in_binaries in K as (a & K). apply in_binaries in I as (b & I). exact (GONE i a b K NE I).
Qed.

Lemma rev_ne (l : list (Z * A)) : l <> [] -> exists j z t, rev l = (j, z) :: t /\ In (j, z) l.
Proof.
  intros N. destruct (rev l) as [|[j z] t] eqn:R; [exfalso; apply N; rewrite <- (rev_involutive l), R; reflexivity|]. exists j, z, t. split; [reflexivity|].
  apply in_rev. rewrite R. now left.
Qed.
Lemma parse_visited : forall chunks rdf d, (forall c, In c chunks -> c <> []) -> rdf <> [] \/ chunks <> [] ->
  parse hash Heqb chunks rdf d = Ok (fold_left (f_lambda hash Heqb) (visited chunks rdf) d).
Proof.
  induction chunks as [|c chunks IH]; intros rdf d N E.
  - destruct E as [E|E]; [|congruence]. destruct rdf as [|[i a] rdf]; [congruence|reflexivity].
  - cbn [parse visited]. destruct (rev_ne (rdf ++ c)) as (j & z & t & R & I); [intros K; apply app_eq_nil in K as [_ K]; apply (N c); [now left|exact K]|].
    rewrite R. rewrite fold_left_app. apply IH; [intros c' I'; apply N; now right|]. left. intros K. assert (J : In (j, z) (filter (fun x => Z.eqb (fst x) j) (rdf ++ c))) by (apply filter_In; split; [exact I|apply Z.eqb_refl]).
    now rewrite K in J.
Qed.

(** ** The counter *)
Notation entry vs h := (filter (fun v : Z * list A => Heqb (hash (snd v)) h) vs).
Lemma counter_get : forall vs h, dget Heqb (fold_left (f_lambda hash Heqb) vs []) h = match entry vs h with [] => None | v :: r => Some (fst v, S (length r)) end.
Proof.
  intros vs. induction vs as [|v vs IH] using rev_ind; intros h; [reflexivity|]. rewrite fold_left_app, filter_app. cbn [fold_left filter]. unfold f_lambda at 1.
  rewrite (dget_dset Heqb_spec). destruct (Heqb_spec h (hash (snd v))) as [->|NE].
  - rewrite IH. destruct (Heqb_spec (hash (snd v)) (hash (snd v))) as [_|K]; [|congruence]. destruct (entry vs (hash (snd v))) as [|w r]; [reflexivity|]. cbn. rewrite app_length. cbn. do 2 f_equal. lia.
  - rewrite IH. destruct (Heqb_spec (hash (snd v)) h) as [K|_]; [congruence|]. now rewrite app_nil_r.
Qed.
Lemma counter_nodup vs : NoDup (dkeys (fold_left (f_lambda hash Heqb) vs [])).
Proof.
  induction vs as [|v vs IH] using rev_ind; [constructor|]. rewrite fold_left_app. cbn [fold_left]. unfold f_lambda at 1. rewrite (dkeys_dset Heqb_spec). unfold dmem.
  destruct (dget Heqb _ (hash (snd v))) eqn:G; [exact IH|]. apply (dget_None_notin Heqb_spec) in G. apply nodup_both; [exact IH|repeat constructor; intros []|]. intros x I [<-|[]]. contradiction.
Qed.
Definition total (d : list (H * (Z * nat))) : nat := fold_right plus 0%nat (map (fun e => snd (snd e)) d).
Lemma total_dset d h v : total (dset Heqb d h v) = (total d + snd v - match dget Heqb d h with Some w => snd w | None => 0 end)%nat /\
  (match dget Heqb d h with Some w => snd w | None => 0 end <= total d)%nat.
Proof.
  unfold total. induction d as [|[k w] d IH]; cbn; [lia|]. destruct (Heqb h k); cbn; [lia|]. destruct (dget Heqb d h); lia.
Qed.
Lemma counter_total vs : total (fold_left (f_lambda hash Heqb) vs []) = length vs.
Proof.
  induction vs as [|v vs IH] using rev_ind; [reflexivity|]. rewrite fold_left_app, app_length. cbn [fold_left length]. unfold f_lambda at 1. 
  destruct (total_dset (fold_left (f_lambda hash Heqb) vs []) (hash (snd v)) (match dget Heqb (fold_left (f_lambda hash Heqb) vs []) (hash (snd v)) with Some (i, n) => (i, S n) | None => (fst v, 1%nat) end)) as [E L].
  rewrite E, IH. rewrite IH in L. destruct (dget Heqb _ (hash (snd v))) as [[i n]|]; cbn in *; lia.
Qed.
Lemma dset_new {V} (d : list (Z * V)) k v : ~ In k (map fst d) -> dset Z.eqb d k v = d ++ [(k, v)].
Proof. induction d as [|[k' v'] d IH]; intros N; [reflexivity|]. cbn in *. destruct (Z.eqb_spec k k') as [->|]; [tauto|]. f_equal. apply IH. tauto. Qed.
Lemma dset_all_nodup {V} (l : list (Z * V)) : forall d, NoDup (map fst (d ++ l)) -> dset_all Z.eqb d l = d ++ l.
Proof.
  unfold dset_all. induction l as [|[k v] l IH]; intros d N; cbn; [now rewrite app_nil_r|]. rewrite map_app in N. cbn in N. apply NoDup_remove in N as [N1 N2].
  rewrite dset_new by (intros K; apply N2; apply in_or_app; now left). rewrite IH; [now rewrite <- app_assoc|]. rewrite <- app_assoc. cbn. rewrite map_app. cbn.
  apply (Permutation_NoDup (Permutation_middle _ _ _)). constructor; assumption.
Qed.
Lemma filter_perm {B} (f : B -> bool) l m : Permutation l m -> Permutation (filter f l) (filter f m).
Proof.
  induction 1 as [|x l m P IH|x y l|l m n P1 IH1 P2 IH2]; cbn; [constructor| | |now transitivity (filter f m)].
  - destruct (f x); [now constructor|exact IH].
  - destruct (f x), (f y); try reflexivity. apply perm_swap.
Qed.

(** ** C191 *)

(** The entries of the counter for a table *)
Lemma counted : forall chunks, chunks <> [] -> (forall c, In c chunks -> c <> []) -> contiguous (concat chunks) -> no_collision (concat chunks) ->
  exists d, parse hash Heqb chunks [] [] = Ok d /\ NoDup (dkeys d) /\ NoDup (map (fun e => fst (snd e)) d) /\ total d = length (binaries (concat chunks)) /\
  (forall h i n, In (h, (i, n)) d -> In i (binaries (concat chunks)) /\ h = hash (evolution_of (concat chunks) i) /\ n = length (with_evolution (concat chunks) (evolution_of (concat chunks) i))) /\
  (forall i, In i (binaries (concat chunks)) -> exists k n, In (hash (evolution_of (concat chunks) i), (k, n)) d /\ evolution_of (concat chunks) k = evolution_of (concat chunks) i).
Proof.
  intros chunks NE N C NC. set (l := concat chunks) in *. set (d := fold_left (f_lambda hash Heqb) (visited chunks []) []).
  assert (V : Permutation (visited chunks []) (pairs l)).
  { apply (visited_perm chunks []); [exists 0%Z; intros i a []|exact C|exact N]. }
  assert (G := counter_get (visited chunks [])). fold d in G.
  assert (IV : forall v, In v (visited chunks []) <-> In (fst v) (binaries l) /\ snd v = evolution_of l (fst v)).
  { intros [i e]. rewrite V. unfold pairs. rewrite in_map_iff. cbn. split; [intros (k & E & I); assert (k = i) as -> by congruence; split; [exact I|congruence]|intros [I ->]; now exists i]. }
  assert (NUM : forall i, In i (binaries l) -> length (entry (visited chunks []) (hash (evolution_of l i))) = length (with_evolution l (evolution_of l i))).
  { intros i I. rewrite (Permutation_length (filter_perm _ _ _ V)). unfold pairs, with_evolution. 
    assert (K : forall m, (forall x, In x m -> In x (binaries l)) -> length (filter (fun v : Z * list A => Heqb (hash (snd v)) (hash (evolution_of l i))) (map (fun k => (k, evolution_of l k)) m)) =
                length (filter (fun k => if dec (evolution_of l k) (evolution_of l i) then true else false) m)).
    { induction m as [|k m IH]; intros HM; [reflexivity|]. cbn. specialize (IH (fun x X => HM x (or_intror X))).
      destruct (Heqb_spec (hash (evolution_of l k)) (hash (evolution_of l i))) as [E|E], (dec (evolution_of l k) (evolution_of l i)) as [E'|E']; cbn; try (now rewrite IH); exfalso.
      - apply E'. apply NC; [apply HM; now left|exact I|exact E].
      - apply E. now rewrite E'. }
    apply K. auto. }
  assert (ENT : forall h i n, In (h, (i, n)) d -> In i (binaries l) /\ h = hash (evolution_of l i) /\ n = length (with_evolution l (evolution_of l i))).
  { intros h i n I. apply (dget_in_nodup Heqb_spec) in I; [|apply counter_nodup]. rewrite G in I. destruct (entry (visited chunks []) h) as [|v r] eqn:F; [discriminate|].
    assert (IN : In v (entry (visited chunks []) h)) by (rewrite F; now left). apply filter_In in IN as [IN HH]. apply IV in IN as [IB EV].
    assert (Hh : hash (snd v) = h) by (destruct (Heqb_spec (hash (snd v)) h); congruence). assert (i = fst v) as -> by congruence.
    rewrite EV in Hh. split; [exact IB|]. split; [congruence|]. rewrite <- NUM by exact IB. rewrite Hh, F. cbn. congruence. }
  exists d. split; [apply parse_visited; [exact N|now right]|]. split; [apply counter_nodup|]. split; [|split; [|split; [exact ENT|]]].
  - assert (ND := counter_nodup (visited chunks [])). fold d in ND. clear - ENT ND. unfold dkeys in ND. induction d as [|[h [i n]] d IH]; [constructor|]. cbn in *. apply NoDup_cons_iff in ND as [N1 N2].
    constructor; [|apply IH; [intros h' i' n' I; apply (ENT h' i' n'); now right|exact N2]]. intros K. apply in_map_iff in K as ([h' [i' n']] & E & K). cbn in E. subst i'. apply N1. apply in_map_iff. exists (h', (i, n')). split; [|exact K].
    cbn. destruct (ENT h i n (or_introl eq_refl)) as (_ & -> & _). now destruct (ENT h' i n' (or_intror K)) as (_ & -> & _).
  - unfold d. rewrite counter_total, (Permutation_length V). unfold pairs. apply map_length.
  - intros i I. assert (F : In (i, evolution_of l i) (entry (visited chunks []) (hash (evolution_of l i)))).
    { apply filter_In. split; [now apply IV|]. cbn. destruct (Heqb_spec (hash (evolution_of l i)) (hash (evolution_of l i))); congruence. }
    assert (GI := G (hash (evolution_of l i))). destruct (entry (visited chunks []) (hash (evolution_of l i))) as [|v r] eqn:E; [destruct F|].
    exists (fst v), (S (length r)). apply (dget_Some_in Heqb_spec) in GI. split; [exact GI|]. destruct (ENT _ _ _ GI) as (IB & HH & _). symmetry. now apply NC.
Qed.
(** For every way to read the table in chunks: each evolution has one entry, of a binary with it, and the number is that of the binaries with it *)
Theorem C191 : forall chunks, chunks <> [] -> (forall c, In c chunks -> c <> []) -> contiguous (concat chunks) -> no_collision (concat chunks) ->
  let l := concat chunks in
  exists cd, count_dict hash Heqb chunks = Ok cd /\ NoDup (map fst cd) /\
    (forall k n, In (k, n) cd -> In k (binaries l) /\ n = length (with_evolution l (evolution_of l k))) /\
    (forall i, In i (binaries l) -> exists k n, In (k, n) cd /\ evolution_of l k = evolution_of l i) /\
    (forall k n k' n', In (k, n) cd -> In (k', n') cd -> evolution_of l k = evolution_of l k' -> k = k') /\
    fold_right plus 0%nat (map snd cd) = length (binaries l).
Proof.
  intros chunks NE N C NC. cbv zeta. destruct (counted chunks NE N C NC) as (d & P & ND1 & ND2 & T & ENT & ALL).
  exists (map snd d). unfold count_dict. rewrite P. cbn [rbind]. rewrite dset_all_nodup by (cbn; now rewrite map_map). cbn [app].
  split; [reflexivity|]. split; [now rewrite map_map|]. split; [|split; [|split]].
  - intros k n I. apply in_map_iff in I as ([h [k' n']] & E & I). cbn in E. assert (k' = k /\ n' = n) as [-> ->] by (split; congruence). destruct (ENT _ _ _ I) as (A1 & _ & A3). now split.
  - intros i I. destruct (ALL i I) as (k & n & K & E). exists k, n. split; [|exact E]. apply in_map_iff. now exists (hash (evolution_of (concat chunks) i), (k, n)).
  - intros k n k' n' I J E. apply in_map_iff in I as ([h [k1 n1]] & E1 & I), J as ([h' [k2 n2]] & E2 & J). cbn in E1, E2.
    assert (k1 = k /\ n1 = n) as [-> ->] by (split; congruence). assert (k2 = k' /\ n2 = n') as [-> ->] by (split; congruence).
    destruct (ENT _ _ _ I) as (_ & H1 & _), (ENT _ _ _ J) as (_ & H2 & _). assert (h = h') as <- by congruence.
    apply (dget_in_nodup Heqb_spec) in I, J; [|exact ND1|exact ND1]. congruence.
  - rewrite map_map. exact T.
Qed.
(** So the numbers do not depend on the size of the chunks *)
Theorem C191_chunks : forall chunks chunks' cd cd', chunks <> [] -> (forall c, In c chunks -> c <> []) -> chunks' <> [] -> (forall c, In c chunks' -> c <> []) ->
  concat chunks = concat chunks' -> contiguous (concat chunks) -> no_collision (concat chunks) -> count_dict hash Heqb chunks = Ok cd -> count_dict hash Heqb chunks' = Ok cd' ->
  forall k n, In (k, n) cd -> exists k', In (k', n) cd' /\ evolution_of (concat chunks) k' = evolution_of (concat chunks) k.
Proof.
  intros chunks chunks' cd cd' NE N NE' N' E C NC R R' k n I.
  destruct (C191 chunks NE N C NC) as (x & X & _ & A1 & _). assert (x = cd) as -> by congruence. destruct (A1 k n I) as [IB ->].
  rewrite E in *. destruct (C191 chunks' NE' N' C NC) as (y & Y & _ & B1 & B2 & _). assert (y = cd') as -> by congruence.
  destruct (B2 k IB) as (k' & n' & K & EV). destruct (B1 k' n' K) as [_ ->]. exists k'. split; [now rewrite EV in K|exact EV].
Qed.
(** The frequencies of all evolutions add up to 100 *)
Theorem C191_frequencies : forall chunks, chunks <> [] -> (forall c, In c chunks -> c <> []) -> contiguous (concat chunks) -> no_collision (concat chunks) ->
  exists f, get_frequencies hash Heqb chunks = Ok f /\ (fold_right Qplus 0 (map snd f) == 100)%Q /\
  (forall k q, In (k, q) f -> In k (binaries (concat chunks)) /\
     (q == 100 * inject_Z (Z.of_nat (length (with_evolution (concat chunks) (evolution_of (concat chunks) k)))) / inject_Z (Z.of_nat (length (binaries (concat chunks)))))%Q).
Proof.
  intros chunks NE N C NC. destruct (counted chunks NE N C NC) as (d & P & ND1 & ND2 & T & ENT & ALL). unfold get_frequencies. rewrite P. cbn [rbind]. cbv zeta. fold (total d). rewrite T.
  rewrite dset_all_nodup by (cbn; now rewrite map_map). cbn [app]. eexists. split; [reflexivity|].
  assert (POS : (0 < length (binaries (concat chunks)))%nat).
  { destruct chunks as [|c chunks]; [congruence|]. destruct c as [|[i a] c]; [exfalso; apply (N []); [now left|reflexivity]|]. assert (I : In i (binaries (concat (((i, a) :: c) :: chunks)))) by (apply in_binaries; exists a; now left).
    apply Nat.neq_0_lt_0. intros K. apply length_zero_iff_nil in K. rewrite K in I. destruct I. }
  set (L := length (binaries (concat chunks))) in *. assert (LQ : (~ inject_Z (Z.of_nat L) == 0)%Q) by (intros K; unfold Qeq in K; cbn in K; lia). split.
  - rewrite map_map. cbn [snd fst]. assert (S : forall m, (fold_right Qplus 0 (map (fun e : H * (Z * nat) => 100 * inject_Z (Z.of_nat (snd (snd e))) / inject_Z (Z.of_nat L)) m) == 100 * inject_Z (Z.of_nat (total m)) / inject_Z (Z.of_nat L))%Q).
    { unfold total. induction m as [|[h [i n]] m IH]; cbn [map fold_right snd]; [cbn; field; exact LQ|]. rewrite IH. rewrite Nat2Z.inj_add, inject_Z_plus. field. exact LQ. }
    rewrite S, T. field. exact LQ.
  - intros k q I. apply in_map_iff in I as ([h [i n]] & E & I). cbn in E. assert (i = k) as -> by congruence. destruct (ENT _ _ _ I) as (A1 & _ & ->). split; [exact A1|].
    assert (Q : q = (100 * inject_Z (Z.of_nat (length (with_evolution (concat chunks) (evolution_of (concat chunks) k)))) / inject_Z (Z.of_nat L))%Q) by congruence. rewrite Q. reflexivity.
Qed.
(** A table without rows ends with an IndexError *)
Theorem C191_empty : count_dict hash Heqb ([] : list (list (Z * A))) = Raise IndexError.
Proof. reflexivity. Qed.
End P.

(** ** Concrete tables: the rows are numbers and the hash is the list itself *)
Definition leqb (x y : list nat) : bool := if list_eq_dec Nat.eq_dec x y then true else false.
Lemma leqb_spec x y : reflect (x = y) (leqb x y).
Proof. unfold leqb. destruct (list_eq_dec Nat.eq_dec x y); now constructor. Qed.
Definition cnt := count_dict (fun x : list nat => x) leqb.
(** Binaries 7, 3 and 9; 7 and 9 have the same evolution; binary 3 is cut by the chunks *)
Example counted_case : cnt [[(7%Z, 1); (7%Z, 2); (3%Z, 1)]; [(3%Z, 5); (3%Z, 6)]; [(9%Z, 1); (9%Z, 2)]] = Ok [(7%Z, 2); (3%Z, 1)].
Proof. reflexivity. Qed.
(** other chunks: the same numbers in another order *)
Example counted_other_chunks : cnt [[(7%Z, 1)]; [(7%Z, 2)]; [(3%Z, 1); (3%Z, 5); (3%Z, 6); (9%Z, 1); (9%Z, 2)]] = Ok [(3%Z, 1); (7%Z, 2)].
Proof. reflexivity. Qed.
Example contiguous_case : contiguous [(7%Z, 1); (7%Z, 2); (3%Z, 1)].
Proof.
  intros l1 l2 l3 l4 i j a b c E.
  destruct l1 as [|p l1]; [|exfalso; apply (f_equal (@length _)) in E; cbn in E; rewrite !app_length in E; cbn in E; rewrite !app_length in E; cbn in E; rewrite !app_length in E; cbn in E; lia].
  destruct l2 as [|p l2]; [cbn in E; congruence|].
  exfalso. apply (f_equal (@length _)) in E. cbn in E. rewrite !app_length in E. cbn in E. rewrite !app_length in E. cbn in E. lia.
Qed.
(** "Each binary counts once" is false if the rows of a binary do not follow each other *)
Theorem C191_contiguous_refuted : ~ (forall chunks cd, (forall c, In c chunks -> c <> []) -> cnt chunks = Ok cd -> fold_right plus 0%nat (map snd cd) = length (binaries (concat chunks))).
Proof.
  intros H. specialize (H [[(7%Z, 1); (3%Z, 1)]; [(7%Z, 2)]] [(7%Z, 1)]). assert (K : (1 = 2)%nat); [|discriminate K].
  apply H; [intros c [<-|[<-|[]]]; discriminate|reflexivity].
Qed.
(** and the numbers then depend on the chunks *)
Theorem C191_chunks_refuted : ~ (forall c1 c2, (forall c, In c (c1 ++ c2) -> c <> []) -> concat c1 = concat c2 -> cnt c1 = cnt c2).
Proof.
  intros H. specialize (H [[(7%Z, 1); (3%Z, 1)]; [(7%Z, 2)]] [[(7%Z, 1); (3%Z, 1); (7%Z, 2)]]). assert (K : cnt [[(7%Z, 1); (3%Z, 1)]; [(7%Z, 2)]] = cnt [[(7%Z, 1); (3%Z, 1); (7%Z, 2)]]); [|vm_compute in K; discriminate K].
  apply H; [intros c [<-|[<-|[<-|[]]]]; discriminate|reflexivity].
Qed.
(** "Binaries of different evolution are told apart" is false if the hashes of two evolutions are the same *)
Theorem C191_collision_refuted : ~ (forall (h : list nat -> nat) chunks cd, (forall c, In c chunks -> c <> []) -> contiguous (concat chunks) -> count_dict h Nat.eqb chunks = Ok cd ->
  forall k n, In (k, n) cd -> n = length (with_evolution (list_eq_dec Nat.eq_dec) (concat chunks) (evolution_of (concat chunks) k))).
Proof.
  intros H. assert (K : (2 = 1)%nat); [|discriminate K]. apply (H (fun _ => 0%nat) [[(7%Z, 1); (3%Z, 2)]] [(7%Z, 2)]) with (k := 7%Z); [intros c [<-|[]]; discriminate| |reflexivity|now left].
  intros l1 l2 l3 l4 i j a b c E. apply (f_equal (@length _)) in E. cbn in E. rewrite !app_length in E. cbn in E. rewrite !app_length in E. cbn in E. rewrite !app_length in E. cbn in E. lia.
Qed.

Print Assumptions C191.
Print Assumptions C191_chunks.
Print Assumptions C191_frequencies.
Print Assumptions C191_empty.
Print Assumptions C191_contiguous_refuted.
Print Assumptions C191_chunks_refuted.
Print Assumptions C191_collision_refuted.
