(** Lemmas about FromRunModel *)
From Coq Require Import Reals String Bool List Arith Lia.
From Verif Require Import PyBase PyStr StarInitModel StarInitProofs FromRunModel.
From Verif Require BinaryModel.
Import ListNotations.
Open Scope string_scope.
Open Scope nat_scope.
Open Scope list_scope.

Lemma bind_ok {A B : Type} (x : result A) (f : A -> result B) y : rbind x f = Ok y -> exists a, x = Ok a /\ f a = Ok y.
Proof. destruct x as [a|]; [|discriminate]. intros H. now exists a. Qed.
Definition touched (l : list string) (k : string) : Prop := exists p, In p l /\ (k = p \/ k = hist p).
Lemma untouched l k : ~ touched l k -> forall p, In p l -> k <> p /\ k <> hist p.
Proof. intros H p I. split; intros K; apply H; exists p; tauto. Qed.
Lemma store_spec n p o vh o' : store n p o vh = Ok o' -> p <> hist p ->
  length (snd vh) = n /\ o' p = Some (fst vh) /\ o' (hist p) = Some (Lst (snd vh)) /\ forall k, k <> p -> k <> hist p -> o' k = o k.
Proof.
  unfold store. destruct (Nat.eqb_spec (length (snd vh)) n) as [L | _]; [|discriminate]. intros E N.
  match type of E with Ok ?t = _ => assert (W : o' = t) by congruence end. subst o'. split; [exact L|]. split; [apply set_same|]. split.
  - rewrite set_other by (now apply not_eq_sym). apply set_same.
  - intros k K1 K2. now rewrite !set_other.
Qed.
Lemma stores_spec {X : Type} (F : X -> result (val * list val)) (key : X -> string) n : forall l o o',
  NoDup (map key l) -> plain (map key l) -> rfold (fun o x => rbind (F x) (store n (key x) o)) l o = Ok o' ->
  (forall x, In x l -> exists v h, F x = Ok (v, h) /\ length h = n /\ o' (key x) = Some v /\ o' (hist (key x)) = Some (Lst h)) /\
  (forall k, ~ touched (map key l) k -> o' k = o k).
Proof.
  induction l as [|x l IH]; intros o o' ND PL E.
  - cbn in E. assert (o' = o) by congruence. subst. split; [contradiction|reflexivity].
  - cbn [rfold] in E. apply bind_ok in E. destruct E as (o1 & E1 & E2). apply bind_ok in E1. destruct E1 as ((v, h) & EF & ES).
    cbn [map] in ND, PL. inversion ND as [|? ? NI ND']; subst.
    assert (PX : forall q, key x <> hist q) by (intros q; apply (plain_hist (key x :: map key l) (key x) q PL); now left).
    destruct (store_spec _ _ _ _ _ ES (PX (key x))) as (L & S1 & S2 & S3). cbn [fst snd] in *.
    destruct (IH o1 o' ND' (fun p I => PL p (or_intror I)) E2) as (A & B).
    assert (T1 : ~ touched (map key l) (key x)).
    { intros (p & I & [K | K]); [subst p; contradiction|]. exact (PX p K). }
    assert (T2 : ~ touched (map key l) (hist (key x))).
    { intros (p & I & [K | K]); [|apply hist_inj in K; subst p; contradiction].
      exact (plain_hist (key x :: map key l) p (key x) PL (or_intror I) (eq_sym K)). }
    split.
    + intros y [<- | I]; [|exact (A y I)]. exists v, h. split; [exact EF|]. split; [exact L|]. split; [now rewrite B|now rewrite B].
    + intros k K. rewrite B.
      * apply S3; intros ->; apply K; exists (key x); (split; [now left|tauto]).
      * intros (p & I & Q). apply K. exists p. split; [now right|exact Q].
Qed.
Lemma load_all_spec d t fv pre hi n l o o' : NoDup l -> plain l -> load_all d t fv pre hi n l o = Ok o' ->
  (forall p, In p l -> exists v h, load d t fv pre hi n p = Ok (v, h) /\ length h = n /\ o' p = Some v /\ o' (hist p) = Some (Lst h)) /\
  (forall k, ~ touched l k -> o' k = o k).
Proof.
  intros ND PL E. assert (M : map (fun p : string => p) l = l) by apply map_id.
  destruct (stores_spec (load d t fv pre hi n) (fun p => p) n l o o') as (A & B); rewrite ?M; try assumption.
  rewrite M in B. split; assumption.
Qed.
Definition FROM_BINARY : list string := ["mass"; "lg_mdot"; "lg_system_mdot"; "lg_wind_mdot"].
Lemma from_binary_keys second : map fst (STAR_ATTRIBUTES_FROM_BINARY_HISTORY second) = FROM_BINARY. Proof. now destruct second. Qed.
Lemma from_binary_spec t fv hi n second o o' : load_from_binary t fv hi n second o = Ok o' ->
  (forall p c, In (p, c) (STAR_ATTRIBUTES_FROM_BINARY_HISTORY second) ->
     exists v h, fetch t fv "" hi c = Ok (v, h) /\ length h = n /\ o' p = Some v /\ o' (hist p) = Some (Lst h)) /\
  (forall k, ~ touched FROM_BINARY k -> o' k = o k).
Proof.
  intros E. unfold load_from_binary in E.
  destruct (stores_spec (fun pc : string * string => fetch t fv "" hi (snd pc)) fst n (STAR_ATTRIBUTES_FROM_BINARY_HISTORY second) o o') with (3 := E) as (A & B); rewrite ?from_binary_keys in *.
  - apply nodup_test. vm_compute. reflexivity.
  - apply plain_test. vm_compute. reflexivity.
  - split; [|exact B]. intros p c I. exact (A (p, c) I).
Qed.

(** Values at helium depletion *)
Lemma substring_all s : substring 0 (String.length s) s = s.
Proof. induction s as [|c s IH]; [reflexivity|]. cbn. now rewrite IH. Qed.
Lemma after3 a b c s : from_to_end (String a (String b (String c s))) 3 = s.
Proof. unfold from_to_end. cbn. rewrite Nat.sub_0_r. apply substring_all. Qed.
Lemma tagged k tag : String.length tag = 3 -> substring 0 3 k = tag -> exists s, k = (tag ++ s)%string.
Proof.
  intros L E. subst tag. destruct k as [|a [|b [|c s]]]; try (cbn in L; discriminate L). exists s.
  cbn. destruct s; reflexivity.
Qed.
Lemma at_He_tail tag s : (tag = "S1_" \/ tag = "S2_") -> at_He (tag ++ s)%string = at_He s.
Proof. unfold at_He. intros [-> | ->]; reflexivity. Qed.
Lemma from_tagged tag s : (tag = "S1_" \/ tag = "S2_") -> from_to_end (tag ++ s)%string 3 = s /\ substring 0 3 (tag ++ s)%string = tag.
Proof. intros [-> | ->]; cbn [String.append]; (split; [apply after3|]); cbn; destruct s; reflexivity. Qed.
Lemma at_He_star_keep tag (T : tag = "S1_" \/ tag = "S2_") : forall fv o k, (forall v, ~ In ((tag ++ k)%string, v) fv) \/ at_He k = false -> fold_left (at_He_star tag) fv o k = o k.
Proof.
  induction fv as [|(x, v) fv IH]; intros o k K; [reflexivity|]. cbn [fold_left]. rewrite IH by (destruct K as [K | K]; [left; intros w I; exact (K w (or_intror I))|now right]).
  unfold at_He_star. cbn [fst snd]. destruct (at_He x) eqn:E1; [|reflexivity]. destruct (String.eqb_spec (substring 0 3 x) tag) as [E2 | _]; [|reflexivity]. cbn [andb].
  apply tagged in E2; [|destruct T as [-> | ->]; reflexivity]. destruct E2 as (s & ->). destruct (from_tagged tag s T) as (-> & _).
  apply set_other. intros ->. rewrite at_He_tail in E1 by exact T. destruct K as [K | K]; [exact (K v (or_introl eq_refl))|congruence].
Qed.
Lemma at_He_star_set tag (T : tag = "S1_" \/ tag = "S2_") : forall fv o k v, NoDup (map fst fv) -> In ((tag ++ k)%string, v) fv -> at_He k = true -> fold_left (at_He_star tag) fv o k = Some v.
Proof.
  induction fv as [|(x, w) fv IH]; intros o k v ND I H; [contradiction|]. cbn [fold_left]. cbn [map fst] in ND. inversion ND as [|? ? NI ND']; subst.
  destruct I as [I | I]; [|now apply IH]. assert (x = (tag ++ k)%string) by congruence. assert (w = v) by congruence. subst x w.
  rewrite at_He_star_keep; [|exact T|].
  - unfold at_He_star. cbn [fst snd]. destruct (from_tagged tag k T) as (-> & ->). rewrite at_He_tail, H, String.eqb_refl by exact T. apply set_same.
  - left. intros u J. apply NI. change (tag ++ k)%string with (fst ((tag ++ k)%string, u)). now apply in_map.
Qed.
Lemma at_He_binary_keep : forall fv o k, at_He k = false -> fold_left at_He_binary fv o k = o k.
Proof.
  induction fv as [|(x, v) fv IH]; intros o k K; [reflexivity|]. cbn [fold_left]. rewrite IH by exact K. unfold at_He_binary. cbn [fst snd].
  destruct (at_He x) eqn:E; [|reflexivity]. cbn [andb]. destruct (_ && _); [|reflexivity]. apply set_other. congruence.
Qed.
Lemma star_no_He : forall p, In p BinaryModel.STARPROPERTIES -> at_He p = false /\ at_He (hist p) = false.
Proof.
  assert (T : forallb (fun p => negb (at_He p) && negb (at_He (hist p))) BinaryModel.STARPROPERTIES = true) by (vm_compute; reflexivity).
  intros p I. rewrite forallb_forall in T. specialize (T p I). destruct (at_He p), (at_He (hist p)); try discriminate T. now split.
Qed.
Lemma binary_no_He : forall p, In p BinaryModel.BINARYPROPERTIES -> at_He p = false /\ at_He (hist p) = false.
Proof.
  assert (T : forallb (fun p => negb (at_He p) && negb (at_He (hist p))) BinaryModel.BINARYPROPERTIES = true) by (vm_compute; reflexivity).
  intros p I. rewrite forallb_forall in T. specialize (T p I). destruct (at_He p), (at_He (hist p)); try discriminate T. now split.
Qed.

(** States *)
Lemma rmap_spec {A B : Type} (f : A -> result B) : forall l ys, rmap f l = Ok ys -> length ys = length l /\ forall i x, nth_error l i = Some x -> exists y, nth_error ys i = Some y /\ f x = Ok y.
Proof.
  induction l as [|x l IH]; intros ys E.
  - cbn in E. assert (ys = []) by congruence. subst. split; [reflexivity|]. intros [|i] x H; discriminate.
  - cbn [rmap] in E. apply bind_ok in E. destruct E as (y & EY & E). apply bind_ok in E. destruct E as (zs & EZ & E).
    assert (ys = y :: zs) by congruence. subst ys. destruct (IH zs EZ) as (L & H). split; [cbn; now rewrite L|].
    intros [|i] w K; cbn in K |- *; [exists y; split; [reflexivity|congruence]|exact (H i w K)].
Qed.
Lemma nth_seq n i : i < n -> nth_error (seq 0 n) i = Some i.
Proof. intros H. rewrite nth_error_nth' with (d := 0) by (rewrite seq_length; exact H). now rewrite seq_nth. Qed.
Lemma star_states_spec chk co n o o' : star_states chk co n o = Ok o' ->
  exists l v, 0 < n /\ length l = n /\ (forall i, i < n -> exists y, nth_error l i = Some y /\ chk o i co = Ok y) /\ nth_error l (n - 1) = Some v /\
  o' "state" = Some v /\ o' (hist "state") = Some (Lst l) /\ (forall k, k <> "state" -> k <> hist "state" -> o' k = o k).
Proof.
  unfold star_states. intros E. apply bind_ok in E. destruct E as (l & EL & E). destruct (rmap_spec _ _ _ EL) as (L & H). rewrite seq_length in L.
  destruct (rev l) as [|v r] eqn:ER; [discriminate|]. assert (R : l = rev r ++ [v]) by (rewrite <- (rev_involutive l), ER; reflexivity).
  match type of E with Ok ?t = _ => assert (W : o' = t) by congruence end. exists l, v.
  assert (LN : n = length (rev r) + 1) by (rewrite <- L, R, app_length; reflexivity).
  split; [lia|]. split; [exact L|]. split; [intros i I; apply H, nth_seq, I|]. split; [rewrite R, LN, nth_error_app2 by lia; replace (length (rev r) + 1 - 1 - length (rev r)) with 0 by lia; reflexivity|].
  subst o'. split; [apply set_same|]. split; [reflexivity|]. intros k K1 K2. rewrite !set_other; trivial.
Qed.
Definition THREE : list string := ["state"; "event"; "mass_transfer_case"].
Lemma push_spec o p v l : o (hist p) = Some (Lst l) -> p <> hist p ->
  push o p v p = Some v /\ push o p v (hist p) = Some (Lst (l ++ [v])) /\ forall k, k <> p -> k <> hist p -> push o p v k = o k.
Proof.
  intros H N. unfold push. rewrite H. split; [rewrite set_other by exact N; apply set_same|]. split; [apply set_same|]. intros k K1 K2. now rewrite !set_other.
Qed.
(** The histories of the three quantities hold the lists *)
Definition holds (o : attrs) (l : list (val * val * val)) : Prop :=
  o "state_history" = Some (Lst (map (fun t => fst (fst t)) l)) /\ o "event_history" = Some (Lst (map (fun t => snd (fst t)) l)) /\
  o "mass_transfer_case_history" = Some (Lst (map snd l)).
Definition current (o : attrs) (t : val * val * val) : Prop := o "state" = Some (fst (fst t)) /\ o "event" = Some (snd (fst t)) /\ o "mass_transfer_case" = Some (snd t).
Lemma push3_spec o t l : holds o l -> holds (push3 o t) (l ++ [t]) /\ current (push3 o t) t /\ forall k, ~ touched THREE k -> push3 o t k = o k.
Proof.
  destruct t as ((s, e), c). intros (H1 & H2 & H3). change (push3 o (s, e, c)) with (push (push (push o "state" s) "event" e) "mass_transfer_case" c).
  destruct (push_spec o "state" s _ H1 ltac:(discriminate)) as (A1 & A2 & A3). set (o1 := push o "state" s) in *.
  assert (H2' : o1 (hist "event") = Some (Lst (map (fun t => snd (fst t)) l))) by (rewrite A3; [exact H2|discriminate|discriminate]).
  destruct (push_spec o1 "event" e _ H2' ltac:(discriminate)) as (B1 & B2 & B3). set (o2 := push o1 "event" e) in *.
  assert (H3' : o2 (hist "mass_transfer_case") = Some (Lst (map snd l))) by (rewrite B3, A3; [exact H3|discriminate|discriminate|discriminate|discriminate]).
  destruct (push_spec o2 "mass_transfer_case" c _ H3' ltac:(discriminate)) as (C1 & C2 & C3). unfold holds, current. rewrite !map_app. cbn [map fst snd].
  change "state_history" with (hist "state"). change "event_history" with (hist "event"). change "mass_transfer_case_history" with (hist "mass_transfer_case").
  split; [split; [|split]|split; [split; [|split]|]].
  - rewrite C3, B3 by discriminate. exact A2.
  - rewrite C3 by discriminate. exact B2.
  - exact C2.
  - rewrite C3, B3 by discriminate. exact A1.
  - rewrite C3 by discriminate. exact B1.
  - exact C1.
  - intros k K. destruct (untouched _ _ K "state" ltac:(cbn; tauto)), (untouched _ _ K "event" ltac:(cbn; tauto)), (untouched _ _ K "mass_transfer_case" ltac:(cbn; tauto)). rewrite C3, B3, A3 by assumption. reflexivity.
Qed.
Lemma binary_states_loop sts : forall n i b b' l, holds (b_attrs b) l -> length l = i ->
  rfold (fun b i => rbind (sts b i) (fun r => Ok (Bin (push3 (b_attrs b) r) (b_star1 b) (b_star2 b)))) (seq i n) b = Ok b' ->
  exists l', length l' = n /\ holds (b_attrs b') (l ++ l') /\ b_star1 b' = b_star1 b /\ b_star2 b' = b_star2 b /\ (forall k, ~ touched THREE k -> b_attrs b' k = b_attrs b k) /\
  (forall t, nth_error (l ++ l') (i + n - 1) = Some t -> 0 < n -> current (b_attrs b') t) /\
  (forall j t, i <= j -> nth_error (l ++ l') j = Some t -> exists bj, sts bj j = Ok t /\ holds (b_attrs bj) (firstn j (l ++ l')) /\ b_star1 bj = b_star1 b /\ b_star2 bj = b_star2 b /\
     (forall k, ~ touched THREE k -> b_attrs bj k = b_attrs b k)).
Proof.
  induction n as [|n IH]; intros i b b' l H L E.
  - cbn in E. assert (b' = b) by congruence. subst b'. exists []. rewrite app_nil_r. repeat split; trivial; try (apply H); try lia.
    intros j t J N. exfalso. assert (nth_error l j <> None) by congruence. apply nth_error_Some in H0. lia.
  - cbn [seq rfold] in E. apply bind_ok in E. destruct E as (b1 & E1 & E2). apply bind_ok in E1. destruct E1 as (t & ET & E1).
    assert (W : b1 = Bin (push3 (b_attrs b) t) (b_star1 b) (b_star2 b)) by congruence. subst b1.
    destruct (push3_spec _ t _ H) as (P1 & P2 & P3).
    destruct (IH (S i) (Bin (push3 (b_attrs b) t) (b_star1 b) (b_star2 b)) b' (l ++ [t]) P1) as (l' & L' & Q1 & Q2 & Q3 & Q4 & Q5 & Q6); [rewrite app_length; cbn; lia|exact E2|].
    cbn [b_attrs b_star1 b_star2] in *. exists (t :: l'). rewrite <- app_assoc in Q1, Q5, Q6. cbn [app] in Q1, Q5, Q6. split; [cbn; lia|]. split; [exact Q1|]. split; [exact Q2|]. split; [exact Q3|].
    assert (NT : nth_error (l ++ t :: l') i = Some t) by (rewrite nth_error_app2 by lia; replace (i - length l) with 0 by lia; reflexivity).
    split; [intros k K; rewrite Q4, P3 by exact K; reflexivity|]. split.
    + intros u NU _. destruct n as [|n]; [|apply Q5; [replace (S i + S n - 1) with (i + S (S n) - 1) by lia; exact NU|lia]].
      replace (i + 1 - 1) with i in NU by lia. assert (u = t) by congruence. subst u.
      cbn in E2. assert (b' = Bin (push3 (b_attrs b) t) (b_star1 b) (b_star2 b)) by congruence. subst b'. exact P2.
    + intros j u J NU. destruct (Nat.eq_dec j i) as [-> | NE].
      * assert (u = t) by congruence. subst u. exists b. split; [exact ET|]. split; [|now repeat split].
        replace (firstn i (l ++ t :: l')) with l; [exact H|]. rewrite <- L. rewrite firstn_app, Nat.sub_diag, firstn_all. cbn. now rewrite app_nil_r.
      * destruct (Q6 j u ltac:(lia) NU) as (bj & R1 & R2 & R3 & R4 & R5). exists bj. split; [exact R1|]. split; [exact R2|]. split; [exact R3|]. split; [exact R4|].
        intros k K. rewrite R5, P3 by exact K. reflexivity.
Qed.
Lemma binary_states_spec sts n b b' : binary_states sts n b = Ok b' ->
  exists l, length l = n /\ holds (b_attrs b') l /\ b_star1 b' = b_star1 b /\ b_star2 b' = b_star2 b /\ (forall k, ~ touched THREE k -> b_attrs b' k = b_attrs b k) /\
  (forall t, nth_error l (n - 1) = Some t -> 0 < n -> current (b_attrs b') t) /\
  (forall j t, nth_error l j = Some t -> exists bj, sts bj j = Ok t /\ holds (b_attrs bj) (firstn j l) /\ b_star1 bj = b_star1 b /\ b_star2 bj = b_star2 b /\
     (forall k, ~ touched THREE k -> b_attrs bj k = b_attrs b k)).
Proof.
  unfold binary_states. intros E. set (o0 := fold_left _ _ (b_attrs b)) in E.
  assert (K0 : forall k, ~ touched THREE k -> o0 k = b_attrs b k).
  { intros k K. unfold o0. cbn [fold_left]. destruct (untouched _ _ K "state" ltac:(cbn; tauto)), (untouched _ _ K "event" ltac:(cbn; tauto)), (untouched _ _ K "mass_transfer_case" ltac:(cbn; tauto)). rewrite !set_other by assumption. reflexivity. }
  destruct (binary_states_loop sts n 0 (Bin o0 (b_star1 b) (b_star2 b)) b' []) as (l & A1 & A2 & A3 & A4 & A5 & A6 & A7); [repeat split|reflexivity|exact E|].
  cbn [app b_attrs b_star1 b_star2] in *. exists l. split; [exact A1|]. split; [exact A2|]. split; [exact A3|]. split; [exact A4|].
  split; [intros k K; rewrite A5 by exact K; now apply K0|]. split; [exact A6|]. intros j t N. destruct (A7 j t ltac:(lia) N) as (bj & B1 & B2 & B3 & B4 & B5).
  exists bj. split; [exact B1|]. split; [exact B2|]. split; [exact B3|]. split; [exact B4|]. intros k K. rewrite B5 by exact K. now apply K0.
Qed.
