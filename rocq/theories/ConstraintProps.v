(** The constraints on interpolated quantities (C129 to C133) *)
From Coq Require Import Reals String List Bool Ascii Arith Lra Lia Psatz.
From Verif Require Import PyBase OrbitModel AccretionModel ConstraintModel.
Import ListNotations.
Open Scope string_scope.
Open Scope R_scope.
Open Scope list_scope.

(** ** Dictionaries *)
Lemma get_set_same k v d : get k (set k v d) = Ok v.
Proof. induction d as [|[k' v'] d IH]; cbn; [rewrite String.eqb_refl; reflexivity|]. destruct (String.eqb k' k) eqn:E; cbn; rewrite E; [reflexivity|exact IH]. Qed.
Lemma get_set_other k k' v d : k <> k' -> get k' (set k v d) = get k' d.
Proof.
  intro N. induction d as [|[q w] d IH]; cbn; [destruct (String.eqb_spec k k'); [contradiction|reflexivity]|]. destruct (String.eqb_spec q k) as [->|M]; cbn; [destruct (String.eqb_spec k k'); [contradiction|reflexivity]|]. destruct (String.eqb q k'); [reflexivity|exact IH].
Qed.
Lemma get_has k d : has k d = true <-> exists v, get k d = Ok v.
Proof.
  induction d as [|[q w] d IH]; cbn; [split; [discriminate|intros (v & E); discriminate]|]. destruct (String.eqb q k); cbn; [split; [intros _; exists w; reflexivity|reflexivity]|exact IH].
Qed.
Lemma set_order k v d : map fst (set k v d) = if has k d then map fst d else map fst d ++ [k].
Proof. induction d as [|[q w] d IH]; cbn; [reflexivity|]. destruct (String.eqb_spec q k) as [->|N]; cbn; [reflexivity|]. rewrite IH. unfold has. destruct (existsb _ d); reflexivity. Qed.
Lemma get_all_get ks : forall d vs i k, get_all ks d = Ok vs -> nth_error ks i = Some k -> exists v, nth_error vs i = Some v /\ get k d = Ok v.
Proof.
  induction ks as [|q ks IH]; intros d vs i k E N; [destruct i; discriminate|]. cbn in E. destruct (get q d) as [v|] eqn:G; [|discriminate E]. cbn in E. destruct (get_all ks d) as [ws|] eqn:GA; [|discriminate E]. cbn in E. assert (vs = v :: ws) by congruence. subst vs.
  destruct i as [|i]; cbn in N; [assert (q = k) by congruence; subst q; exists v; split; [reflexivity|exact G]|]. apply (IH d ws i k GA N).
Qed.
Lemma get_all_length ks : forall d vs, get_all ks d = Ok vs -> length vs = length ks.
Proof. induction ks as [|q ks IH]; intros d vs E; [cbn in E; assert (vs = []) by congruence; subst; reflexivity|]. cbn in E. destruct (get q d) as [v|]; [|discriminate E]. cbn in E. destruct (get_all ks d) as [ws|] eqn:GA; [|discriminate E]. cbn in E. assert (vs = v :: ws) by congruence. subst vs. cbn. f_equal. apply (IH d). exact GA. Qed.
Lemma get_all_ext ks : forall d d', (forall k, In k ks -> get k d' = get k d) -> get_all ks d' = get_all ks d.
Proof. induction ks as [|q ks IH]; intros d d' H; [reflexivity|]. cbn. rewrite H by (left; reflexivity). rewrite (IH d d'); [reflexivity|]. intros k I. apply H. right. exact I. Qed.

(** ** C129: chains of inequalities *)
(** Neighbours that are numbers do not increase. *)
Fixpoint descending (l : list fl) : Prop :=
  match l with x :: ((y :: _) as l') => match x, y with Some a, Some b => b <= a | _, _ => True end /\ descending l' | _ => True end.
Definition linear (log : bool) (l : list fl) : list fl := match l with v :: l' => (if log then lift1 (Rpower 10) v else v) :: l' | [] => [] end.

Lemma descend_spec keys : forall vals prev d, NoDup keys -> get_all keys d = Ok vals ->
  let d' := descend prev vals keys d in
  (forall k, ~ In k keys -> get k d' = get k d) /\ map fst d' = map fst d /\
  exists vals', get_all keys d' = Ok vals' /\ descending (prev :: vals') /\
    (forall p xs, prev = Some p -> vals = map Some xs -> exists ys, vals' = map Some ys /\ length ys = length xs /\
      forall i y, nth_error ys i = Some y -> y <= p /\ (forall j x, (j <= i)%nat -> nth_error xs j = Some x -> y <= x) /\ (y = p \/ exists j x, (j <= i)%nat /\ nth_error xs j = Some x /\ y = x)) /\
    (descending (prev :: vals) -> d' = d).
Proof.
  induction keys as [|k keys IH]; intros vals prev d ND E d'; unfold d'.
  - cbn in E. assert (vals = []) by congruence. subst vals. cbn. split; [reflexivity|]. split; [reflexivity|]. exists []. split; [reflexivity|]. split; [split; exact I|]. split; [|reflexivity].
    intros p xs _ X. destruct xs; [|discriminate]. exists []. split; [reflexivity|]. split; [reflexivity|]. intros [|i] y N; discriminate.
  - inversion ND as [|? ? NI ND']; subst. cbn in E. destruct (get k d) as [v|] eqn:G; [|discriminate E]. cbn in E. destruct (get_all keys d) as [vs|] eqn:GA; [|discriminate E]. cbn in E. assert (vals = v :: vs) by congruence. subst vals. cbn [descend].
    assert (CASE : (exists p x, prev = Some p /\ v = Some x /\ p < x) \/ (match prev, v with Some p, Some x => x <= p | _, _ => True end)).
    { destruct prev as [p|], v as [x|]; auto. destruct (Rlt_dec p x); [left; exists p, x; auto|right; lra]. }
    destruct CASE as [(p & x & -> & -> & L)|C].
    + destruct (Rlt_dec p x) as [_|N]; [|contradiction]. destruct (IH vs (Some p) (set k (Some p) d) ND') as (F & O & vals' & GV & DES & MIN & SAME).
      { rewrite (get_all_ext keys d); [exact GA|]. intros q I. apply get_set_other. intro Q. subst q. contradiction. }
      split; [intros q NQ; rewrite F by (intro I; apply NQ; right; exact I); apply get_set_other; intro Q; apply NQ; left; exact Q|].
      split; [rewrite O, set_order; assert (H : has k d = true) by (apply get_has; eauto); rewrite H; reflexivity|].
      exists (Some p :: vals'). split; [cbn; rewrite F by exact NI; rewrite get_set_same; cbn; rewrite GV; reflexivity|]. split; [split; [lra|exact DES]|]. split.
      * intros p' xs Q X. assert (p' = p) by congruence. subst p'. destruct xs as [|x' xs]; [discriminate|]. cbn in X. assert (x' = x) by congruence. assert (vs = map Some xs) by congruence. subst x' vs.
        destruct (MIN p xs eq_refl eq_refl) as (ys & Y & LY & P). exists (p :: ys). split; [cbn; rewrite Y; reflexivity|]. split; [cbn; rewrite LY; reflexivity|].
        intros [|i] y N; cbn in N; [assert (y = p) by congruence; subst y; split; [lra|]; split; [intros [|j] z J NJ; [cbn in NJ; assert (z = x) by congruence; lra|lia]|left; reflexivity]|].
        destruct (P i y N) as (P1 & P2 & P3). split; [exact P1|]. split; [intros [|j] z J NJ; cbn in NJ; [assert (z = x) by congruence; lra|apply (P2 j); [lia|exact NJ]]|]. destruct P3 as [P3|(j & z & J & NJ & P3)]; [left; exact P3|right; exists (S j), z; split; [lia|split; [exact NJ|exact P3]]].
      * intros [D _]. exfalso. lra.
    + assert (STEP : (match prev, v with Some p, Some x => if Rlt_dec p x then descend prev vs keys (set k prev d) else descend v vs keys d | _, _ => descend v vs keys d end) = descend v vs keys d).
      { destruct prev as [p|], v as [x|]; try reflexivity. destruct (Rlt_dec p x); [lra|reflexivity]. }
      rewrite STEP. destruct (IH vs v d ND' GA) as (F & O & vals' & GV & DES & MIN & SAME). split; [intros q NQ; apply F; intro I; apply NQ; right; exact I|]. split; [exact O|].
      exists (v :: vals'). split; [cbn; rewrite F by exact NI; rewrite G; cbn; rewrite GV; reflexivity|]. split; [split; [exact C|exact DES]|]. split.
      * intros p xs Q X. subst prev. destruct xs as [|x xs]; [discriminate|]. cbn in X. assert (v = Some x) by congruence. assert (vs = map Some xs) by congruence. subst v vs.
        destruct (MIN x xs eq_refl eq_refl) as (ys & Y & LY & P). exists (x :: ys). split; [cbn; rewrite Y; reflexivity|]. split; [cbn; rewrite LY; reflexivity|].
        intros [|i] y N; cbn in N; [assert (y = x) by congruence; subst y; split; [exact C|]; split; [intros [|j] z J NJ; [cbn in NJ; assert (z = x) by congruence; lra|lia]|right; exists 0%nat, x; split; [lia|split; reflexivity]]|].
        destruct (P i y N) as (P1 & P2 & P3). split; [lra|]. split; [intros [|j] z J NJ; cbn in NJ; [assert (z = x) by congruence; lra|apply (P2 j); [lia|exact NJ]]|].
        right. destruct P3 as [P3|(j & z & J & NJ & P3)]; [exists 0%nat, x; split; [lia|split; [reflexivity|exact P3]]|exists (S j), z; split; [lia|split; [exact NJ|exact P3]]].
      * intros [_ D]. apply SAME. exact D.
Qed.

Theorem C129_chain : forall log keys d d', NoDup keys -> keys <> [] -> correct_one log keys d = Ok d' ->
  exists vals vals', get_all keys d = Ok vals /\ get_all keys d' = Ok vals' /\
    descending (linear log vals') /\ map fst d' = map fst d /\ (forall k, ~ In k keys -> get k d' = get k d) /\ hd None vals' = hd None vals /\
    (forall xs, linear log vals = map Some xs -> exists ys, linear log vals' = map Some ys /\ length ys = length xs /\
       forall i y, nth_error ys i = Some y -> (forall j x, (j <= i)%nat -> nth_error xs j = Some x -> y <= x) /\ exists j x, (j <= i)%nat /\ nth_error xs j = Some x /\ y = x) /\
    (descending (linear log vals) -> d' = d).
Proof.
  intros log [|k keys] d d' ND NE E; [congruence|]. inversion ND as [|? ? NI ND']; subst. unfold correct_one in E. cbn [get_all] in E. destruct (get k d) as [v|] eqn:G; [|discriminate E]. cbn [rbind] in E. destruct (get_all keys d) as [vs|] eqn:GA; [|discriminate E]. cbn [rbind] in E.
  set (p := if log then lift1 (Rpower 10) v else v) in *. assert (D' : d' = descend p vs keys d) by congruence. destruct (descend_spec keys vs p d ND' GA) as (F & O & vals' & GV & DES & MIN & SAME). rewrite <- D' in *. clear E.
  exists (v :: vs), (v :: vals'). split; [cbn; rewrite G; cbn; rewrite GA; reflexivity|]. split; [cbn; rewrite F by exact NI; rewrite G; cbn; rewrite GV; reflexivity|]. cbn [linear hd]. fold p. split; [exact DES|]. split; [exact O|]. split; [intros q NQ; apply F; intro I; apply NQ; right; exact I|]. split; [reflexivity|]. split; [|exact SAME].
  intros xs X. destruct xs as [|x xs]; [discriminate|]. cbn in X. assert (PX : p = Some x) by congruence. assert (VX : vs = map Some xs) by congruence. destruct (MIN x xs PX VX) as (ys & Y & LY & P). exists (x :: ys). split; [cbn; rewrite Y, PX; reflexivity|]. split; [cbn; rewrite LY; reflexivity|].
  intros [|i] y N; cbn in N; [assert (y = x) by congruence; subst y; split; [intros [|j] z J NJ; [cbn in NJ; assert (z = x) by congruence; lra|lia]|exists 0%nat, x; split; [lia|split; reflexivity]]|].
  destruct (P i y N) as (P1 & P2 & P3). split; [intros [|j] z J NJ; cbn in NJ; [assert (z = x) by congruence; lra|apply (P2 j); [lia|exact NJ]]|]. destruct P3 as [P3|(j & z & J & NJ & P3)]; [exists 0%nat, x; split; [lia|split; [reflexivity|exact P3]]|exists (S j), z; split; [lia|split; [exact NJ|exact P3]]].
Qed.
Print Assumptions C129_chain.
Example C129_case : let d := [("m", Some 10); ("he", Some 12); ("other", None); ("co", Some 11)] in
  correct_one false ["m"; "he"; "co"] d = Ok [("m", Some 10); ("he", Some 10); ("other", None); ("co", Some 10)] /\ linear false [Some 10; Some 12; Some 11] = map Some [10; 12; 11] /\ ~ descending [Some 10; Some 12; Some 11].
Proof. cbv zeta. split; [cbn; destruct (Rlt_dec 10 12); [|lra]; cbn; destruct (Rlt_dec 10 11); [|lra]; reflexivity|]. split; [reflexivity|]. cbn. lra. Qed.
(** A missing value in the middle separates the chain: the carbon-oxygen core may be heavier than the star. *)
Theorem C129_gap_refuted : let d := [("m", Some 10); ("he", None); ("co", Some 11)] in
  correct_one false ["m"; "he"; "co"] d = Ok d /\
  ~ (forall keys d d' i j x y a b, NoDup keys -> correct_one false keys d = Ok d' -> (i < j)%nat -> nth_error keys i = Some x -> nth_error keys j = Some y -> get x d' = Ok (Some a) -> get y d' = Ok (Some b) -> b <= a).
Proof.
  cbv zeta. assert (E : correct_one false ["m"; "he"; "co"] [("m", Some 10); ("he", None); ("co", Some 11)] = Ok [("m", Some 10); ("he", None); ("co", Some 11)]) by reflexivity.
  split; [exact E|]. intro H. assert (ND : NoDup ["m"; "he"; "co"]) by (repeat constructor; cbn; intuition discriminate). specialize (H _ _ _ 0%nat 2%nat "m" "co" 10 11 ND E ltac:(lia) eq_refl eq_refl eq_refl eq_refl). lra.
Qed.
Print Assumptions C129_gap_refuted.

(** ** C130: sums *)
Fixpoint total (l : list R) : R := match l with [] => 0 | x :: l' => x + total l' end.
Lemma fsum_from xs : forall s, fold_left (lift2 Rplus) (map Some xs) (Some s) = Some (s + total xs).
Proof. induction xs as [|x xs IH]; intro s; cbn; [f_equal; ring|]. rewrite IH. f_equal. ring. Qed.
Lemma fsum_finite xs : fsum (map Some xs) = Some (total xs).
Proof. unfold fsum. rewrite fsum_from. f_equal. ring. Qed.
Lemma fsum_none l : In None l -> fsum l = None.
Proof.
  assert (N : forall l, fold_left (lift2 Rplus) l None = None) by (induction l0; [reflexivity|exact IHl0]). unfold fsum. generalize (Some 0). induction l as [|x l IH]; intros s I; [contradiction|]. destruct I as [->|I]; cbn; [destruct s; cbn; apply N|apply IH; exact I].
Qed.
Lemma rescale_spec c s keys : forall d vs, NoDup keys -> get_all keys d = Ok vs ->
  exists d', rescale c s keys d = Ok d' /\ get_all keys d' = Ok (map (fun v => lift2 Rmult c (fdiv v s)) vs) /\ map fst d' = map fst d /\ forall k, ~ In k keys -> get k d' = get k d.
Proof.
  induction keys as [|k keys IH]; intros d vs ND E; [cbn in E; assert (vs = []) by congruence; subst; exists d; split; [reflexivity|]; split; [reflexivity|]; split; [reflexivity|]; reflexivity|].
  inversion ND as [|? ? NI ND']; subst. cbn in E. destruct (get k d) as [v|] eqn:G; [|discriminate E]. cbn in E. destruct (get_all keys d) as [ws|] eqn:GA; [|discriminate E]. cbn in E. assert (vs = v :: ws) by congruence. subst vs. cbn [rescale]. rewrite G. cbn [rbind].
  set (w := lift2 Rmult c (fdiv v s)) in *. destruct (IH (set k w d) ws ND') as (d' & R1 & R2 & R3 & R4). { rewrite (get_all_ext keys d); [exact GA|]. intros q I. apply get_set_other. intro Q. subst q. contradiction. }
  exists d'. split; [exact R1|]. split; [cbn; rewrite R4 by exact NI; rewrite get_set_same; cbn; rewrite R2; reflexivity|]. split; [rewrite R3, set_order; assert (H : has k d = true) by (apply get_has; eauto); rewrite H; reflexivity|].
  intros q NQ. rewrite R4 by (intro I; apply NQ; right; exact I). apply get_set_other. intro Q. apply NQ. left. exact Q.
Qed.
Lemma total_scale k xs : total (map (fun x => k * x) xs) = k * total xs.
Proof. induction xs as [|x xs IH]; cbn; [ring|]. rewrite IH. ring. Qed.
Theorem C130_sum : forall keys c d xs, NoDup keys -> get_all keys d = Ok (map Some xs) ->
  (Rabs (total xs - c) <= EPS -> correct_sum keys (Number c) d = Ok d) /\
  (EPS < Rabs (total xs - c) -> total xs <> 0 ->
     exists d' ys, correct_sum keys (Number c) d = Ok d' /\ get_all keys d' = Ok (map Some ys) /\ total ys = c /\ (forall i x, nth_error xs i = Some x -> nth_error ys i = Some (c / total xs * x)) /\ length ys = length xs /\
       map fst d' = map fst d /\ forall k, ~ In k keys -> get k d' = get k d) /\
  (EPS < Rabs (total xs - c) -> total xs = 0 -> exists d', correct_sum keys (Number c) d = Ok d' /\ get_all keys d' = Ok (map (fun _ => None) xs)).
Proof.
  intros keys c d xs ND E. unfold correct_sum. rewrite E. cbn [rbind]. rewrite fsum_finite. split; [|split].
  - intro C. destruct (Rlt_dec EPS (Rabs (total xs - c))); [lra|reflexivity].
  - intros C NZ. destruct (Rlt_dec EPS (Rabs (total xs - c))); [|contradiction]. destruct (rescale_spec (Some c) (Some (total xs)) keys d _ ND E) as (d' & R1 & R2 & R3 & R4). exists d', (map (fun x => c / total xs * x) xs). split; [exact R1|].
    split; [rewrite R2; f_equal; rewrite !map_map; apply map_ext; intro x; cbn; destruct (Req_EM_T (total xs) 0); [contradiction|]; cbn; f_equal; field; exact NZ|]. split; [rewrite total_scale; field; exact NZ|]. split; [intros i x N; rewrite nth_error_map, N; reflexivity|]. split; [apply map_length|]. split; [exact R3|exact R4].
  - intros C Z. destruct (Rlt_dec EPS (Rabs (total xs - c))); [|contradiction]. destruct (rescale_spec (Some c) (Some (total xs)) keys d _ ND E) as (d' & R1 & R2 & R3 & R4). exists d'. split; [exact R1|]. rewrite R2. f_equal. rewrite map_map. apply map_ext. intro x. cbn. destruct (Req_EM_T (total xs) 0); [reflexivity|contradiction].
Qed.
Print Assumptions C130_sum.
Theorem C130_missing : forall keys c d vs, get_all keys d = Ok vs -> In None vs -> correct_sum keys (Number c) d = Ok d.
Proof. intros keys c d vs E I. unfold correct_sum. rewrite E. cbn [rbind]. rewrite fsum_none by exact I. reflexivity. Qed.
Example C130_case : exists d', correct_sum ["h"; "he"] (Number 1) [("h", Some 1); ("he", Some 3)] = Ok d' /\ get "h" d' = Ok (Some (1 * (1 / (0 + 1 + 3)))) /\ get "he" d' = Ok (Some (1 * (3 / (0 + 1 + 3)))).
Proof.
  unfold correct_sum. cbn. unfold EPS. replace (0 + 1 + 3 - 1) with 3 by ring. rewrite Rabs_pos_eq by lra. destruct (Rlt_dec 1e-9 3); [|lra]. cbn. destruct (Req_EM_T (0 + 1 + 3) 0); [lra|]. eexists. split; [reflexivity|]. split; reflexivity.
Qed.
(** A name as the value of the sum fails where there is something to correct. *)
Theorem C130_field_refuted : (forall keys k d xs t, get_all keys d = Ok (map Some xs) -> get k d = Ok (Some t) -> EPS < Rabs (total xs - t) -> correct_sum keys (Field k) d = Raise TypeError) /\
  ~ (forall keys k d, (forall q, In q (k :: keys) -> has q d = true) -> exists d', correct_sum keys (Field k) d = Ok d').
Proof.
  assert (F : forall keys k d xs t, get_all keys d = Ok (map Some xs) -> get k d = Ok (Some t) -> EPS < Rabs (total xs - t) -> correct_sum keys (Field k) d = Raise TypeError).
  { intros keys k d xs t E G C. unfold correct_sum. rewrite E. cbn [rbind]. rewrite fsum_finite, G. cbn [rbind]. destruct (Rlt_dec EPS (Rabs (total xs - t))); [reflexivity|contradiction]. }
  split; [exact F|]. intro H. destruct (H ["a"] "b" [("a", Some 3); ("b", Some 1)]) as (d' & E). { intros q [<-|[<-|[]]]; reflexivity. }
  rewrite (F ["a"] "b" [("a", Some 3); ("b", Some 1)] [3] 1 eq_refl eq_refl) in E; [discriminate|]. cbn. unfold EPS. replace (3 + 0 - 1) with 2 by ring. rewrite Rabs_pos_eq by lra. lra.
Qed.
Print Assumptions C130_field_refuted.
(** Fractions are not made positive. *)
Theorem C130_negative_refuted : let d := [("h", Some (- 0.5)); ("he", Some 1.5)] in correct_sum ["h"; "he"] (Number 1) d = Ok d /\
  ~ (forall keys d d' k x, NoDup keys -> correct_sum keys (Number 1) d = Ok d' -> In k keys -> get k d' = Ok (Some x) -> 0 <= x <= 1).
Proof.
  cbv zeta. assert (E : correct_sum ["h"; "he"] (Number 1) [("h", Some (- 0.5)); ("he", Some 1.5)] = Ok [("h", Some (- 0.5)); ("he", Some 1.5)]).
  { unfold correct_sum. cbn. replace (0 + - 0.5 + 1.5 - 1) with 0 by lra. rewrite Rabs_R0. unfold EPS. destruct (Rlt_dec 1e-9 0); [lra|reflexivity]. }
  split; [exact E|]. intro H. assert (ND : NoDup ["h"; "he"]) by (repeat constructor; cbn; intuition discriminate). specialize (H _ _ _ "h" (- 0.5) ND E (or_introl eq_refl) eq_refl). lra.
Qed.
Print Assumptions C130_negative_refuted.

(** ** C131: the convective region *)
(** A region of thickness [t] around the radius [r] within a star of radius [big]. *)
Definition fits (r t big : R) : Prop := 0 < t /\ t / 2 <= r /\ r + t / 2 <= big.
Lemma valid_iff big r t : valid big (r, t) = true <-> 0 < t /\ t / 2 - EPS <= r /\ r + t / 2 <= big + EPS.
Proof.
  unfold valid. destruct (Rlt_dec 0 t), (Rle_dec (0.5 * t - EPS) r), (Rle_dec (r + 0.5 * t) (big + EPS)); cbn; split; intro H; try discriminate; try reflexivity; try (destruct H as (H1 & H2 & H3); exfalso; lra). repeat split; lra.
Qed.
Lemma solve_one s big : s <> 1 / 2 -> let t := (big / 2 - s * (big / 3)) / (1 / 2 - s) in solve (-1) s 1 (-0.5) (- (big / 2) + s * (big / 3)) 0 = Ok (t / 2, t).
Proof.
  intros N t. unfold solve. replace (-1 * -0.5 - s * 1) with (1 / 2 - s) by lra. destruct (Req_EM_T (1 / 2 - s) 0); [exfalso; lra|]. unfold t. replace (-0.5) with (- (1 / 2)) by lra. f_equal. f_equal; field; lra.
Qed.
Lemma solve_two s big : s <> - (1 / 2) -> let t := (big / 2 + s * (big / 3)) / (1 / 2 + s) in solve (-1) s 1 0.5 (- (big / 2) + s * (big / 3)) big = Ok (big - t / 2, t).
Proof.
  intros N t. unfold solve. replace (-1 * 0.5 - s * 1) with (- (1 / 2 + s)) by lra. destruct (Req_EM_T (- (1 / 2 + s)) 0); [exfalso; lra|]. unfold t. replace 0.5 with (1 / 2) by lra. f_equal. f_equal; field; lra.
Qed.
Lemma solve_one_singular s big : s = 1 / 2 -> solve (-1) s 1 (-0.5) (- (big / 2) + s * (big / 3)) 0 = Raise LinAlgError.
Proof. intro N. unfold solve. destruct (Req_EM_T (-1 * -0.5 - s * 1) 0); [reflexivity|exfalso; lra]. Qed.
Lemma solve_two_singular s big : s = - (1 / 2) -> solve (-1) s 1 0.5 (- (big / 2) + s * (big / 3)) big = Raise LinAlgError.
Proof. intro N. unfold solve. destruct (Req_EM_T (-1 * 0.5 - s * 1) 0); [reflexivity|exfalso; lra]. Qed.
(** One of the two intersections is always valid. *)
Lemma one_valid s big : 0 < big -> s <= 0 -> let t := (big / 2 - s * (big / 3)) / (1 / 2 - s) in valid big (t / 2, t) = true.
Proof.
  intros B S t. assert (E : t * (1 / 2 - s) = big / 2 - s * (big / 3)) by (unfold t; field; lra). assert (P : 0 < t) by (unfold t; apply Rdiv_lt_0_compat; nra). assert (U : t <= big) by nra. apply valid_iff. unfold EPS. repeat split; lra.
Qed.
Lemma two_valid s big : 0 < big -> 0 <= s -> let t := (big / 2 + s * (big / 3)) / (1 / 2 + s) in valid big (big - t / 2, t) = true.
Proof.
  intros B S t. assert (E : t * (1 / 2 + s) = big / 2 + s * (big / 3)) by (unfold t; field; lra). assert (P : 0 < t) by (unfold t; apply Rdiv_lt_0_compat; nra). assert (U : t <= big) by nra. apply valid_iff. unfold EPS. repeat split; lra.
Qed.
(** What the projection gives *)
Definition singular (r t big : R) : Prop := 2 * (r - big / 2) = t - big / 3 \/ 2 * (r - big / 2) = - (t - big / 3).
Lemma project_spec r t big : 0 < big ->
  (r = big / 2 -> project r t big = Ok (big / 2, big)) /\
  (r <> big / 2 -> t = big / 3 -> project r t big = Raise AssertionError) /\
  (r <> big / 2 -> t <> big / 3 -> singular r t big -> project r t big = Raise LinAlgError) /\
  (r <> big / 2 -> t <> big / 3 -> ~ singular r t big -> exists r' t', project r t big = Ok (r', t') /\ (0 < t' /\ t' / 2 - EPS <= r' /\ r' + t' / 2 <= big + EPS) /\
     (r' = t' / 2 \/ r' + t' / 2 = big) /\ (r' - big / 2) * (t - big / 3) = (r - big / 2) * (t' - big / 3)).
Proof.
  intro B. unfold project. split; [|split; [|split]].
  - intros ->. destruct (Req_EM_T (big / 2) (big / 2)); [|congruence]. f_equal. f_equal. lra.
  - intros N ->. destruct (Req_EM_T (big / 2) r); [exfalso; apply N; lra|]. destruct (Req_EM_T (big / 3) (big / 3)); [reflexivity|congruence].
  - intros N M S. destruct (Req_EM_T (big / 2) r); [exfalso; apply N; lra|]. destruct (Req_EM_T t (big / 3)); [contradiction|]. set (s := (r - big / 2) / (t - big / 3)). assert (ES : s * (t - big / 3) = r - big / 2) by (unfold s; field; lra). cbv zeta.
    destruct S as [S|S].
    + rewrite solve_one_singular; [reflexivity|]. apply (Rmult_eq_reg_r (t - big / 3)); lra.
    + assert (H : s = - (1 / 2)) by (apply (Rmult_eq_reg_r (t - big / 3)); lra). rewrite solve_one by lra. cbn [rbind]. rewrite solve_two_singular by exact H. reflexivity.
  - intros N M S. destruct (Req_EM_T (big / 2) r); [exfalso; apply N; lra|]. destruct (Req_EM_T t (big / 3)); [contradiction|]. set (s := (r - big / 2) / (t - big / 3)). assert (ES : s * (t - big / 3) = r - big / 2) by (unfold s; field; lra). cbv zeta.
    assert (S1 : s <> 1 / 2) by (intro Q; apply S; left; rewrite <- ES, Q; lra). assert (S2 : s <> - (1 / 2)) by (intro Q; apply S; right; rewrite <- ES, Q; lra).
    rewrite (solve_one s big S1). cbn [rbind]. rewrite (solve_two s big S2). cbn [rbind].
    pose proof (one_valid s big B) as V1. pose proof (two_valid s big B) as V2. cbv zeta in V1, V2. set (t1 := (big / 2 - s * (big / 3)) / (1 / 2 - s)) in *. set (t2 := (big / 2 + s * (big / 3)) / (1 / 2 + s)) in *.
    assert (E1 : t1 * (1 / 2 - s) = big / 2 - s * (big / 3)) by (unfold t1; field; lra). assert (E2 : t2 * (1 / 2 + s) = big / 2 + s * (big / 3)) by (unfold t2; field; lra).
    assert (G1 : valid big (t1 / 2, t1) = true -> (0 < t1 /\ t1 / 2 - EPS <= t1 / 2 /\ t1 / 2 + t1 / 2 <= big + EPS) /\ (t1 / 2 = t1 / 2 \/ t1 / 2 + t1 / 2 = big) /\ (t1 / 2 - big / 2) * (t - big / 3) = (r - big / 2) * (t1 - big / 3)).
    { intro V. split; [apply valid_iff; exact V|]. split; [left; reflexivity|]. rewrite <- ES. replace (t1 / 2 - big / 2) with (s * (t1 - big / 3)) by lra. ring. }
    assert (G2 : valid big (big - t2 / 2, t2) = true -> (0 < t2 /\ t2 / 2 - EPS <= big - t2 / 2 /\ big - t2 / 2 + t2 / 2 <= big + EPS) /\ (big - t2 / 2 = t2 / 2 \/ big - t2 / 2 + t2 / 2 = big) /\ (big - t2 / 2 - big / 2) * (t - big / 3) = (r - big / 2) * (t2 - big / 3)).
    { intro V. split; [apply valid_iff; exact V|]. split; [right; lra|]. rewrite <- ES. replace (big - t2 / 2 - big / 2) with (s * (t2 - big / 3)) by lra. ring. }
    cbn [filter]. destruct (valid big (t1 / 2, t1)) eqn:W1, (valid big (big - t2 / 2, t2)) eqn:W2.
    + destruct (Rlt_dec _ _); eexists; eexists; (split; [reflexivity|]); [apply G2; reflexivity|apply G1; reflexivity].
    + eexists; eexists; (split; [reflexivity|]). apply G1. reflexivity.
    + eexists; eexists; (split; [reflexivity|]). apply G2. reflexivity.
    + exfalso. destruct (Rle_dec s 0); [specialize (V1 r0)|specialize (V2 ltac:(lra))]; congruence.
Qed.
Lemma get3 k0 k1 k2 d vs : get_all [k0; k1; k2] d = Ok vs -> exists a b c, vs = [a; b; c] /\ get k0 d = Ok a /\ get k1 d = Ok b /\ get k2 d = Ok c.
Proof. cbn. destruct (get k0 d) as [a|]; [|discriminate]. cbn. destruct (get k1 d) as [b|]; [|discriminate]. cbn. destruct (get k2 d) as [c|]; [|discriminate]. cbn. intro E. exists a, b, c. split; [congruence|]. auto. Qed.
Theorem C131_region : forall kR kt kr d lR t r, NoDup [kR; kt; kr] -> get_all [kR; kt; kr] d = Ok [Some lR; Some t; Some r] -> let big := Rpower 10 lR in
  (fits r t big -> get_thickness_n_radius [kR; kt; kr] d = Ok d) /\
  (~ fits r t big -> r = big / 2 -> exists d', get_thickness_n_radius [kR; kt; kr] d = Ok d' /\ get_all [kR; kt; kr] d' = Ok [Some lR; Some big; Some (big / 2)]) /\
  (~ fits r t big -> r <> big / 2 -> t <> big / 3 -> ~ singular r t big ->
     exists d' t' r', get_thickness_n_radius [kR; kt; kr] d = Ok d' /\ get_all [kR; kt; kr] d' = Ok [Some lR; Some t'; Some r'] /\ (0 < t' /\ t' / 2 - EPS <= r' /\ r' + t' / 2 <= big + EPS) /\
       (r' = t' / 2 \/ r' + t' / 2 = big) /\ (r' - big / 2) * (t - big / 3) = (r - big / 2) * (t' - big / 3) /\
       map fst d' = map fst d /\ (forall k, k <> kt -> k <> kr -> get k d' = get k d)) /\
  (~ fits r t big -> r <> big / 2 -> t = big / 3 -> get_thickness_n_radius [kR; kt; kr] d = Raise AssertionError) /\
  (~ fits r t big -> r <> big / 2 -> t <> big / 3 -> singular r t big -> get_thickness_n_radius [kR; kt; kr] d = Raise LinAlgError).
Proof.
  intros kR kt kr d lR t r ND E big. destruct (get3 _ _ _ _ _ E) as (a & b & c & Q & Ga & Gb & Gc). assert (a = Some lR) by congruence. assert (b = Some t) by congruence. assert (c = Some r) by congruence. subst a b c. clear Q.
  assert (B : 0 < big) by apply exp_pos. assert (N : kt <> kR /\ kr <> kR /\ kr <> kt) by (inversion ND as [|? ? N1 ND1]; inversion ND1 as [|? ? N2 ?]; subst; cbn in N1, N2; intuition congruence). destruct N as (N1 & N2 & N3).
  assert (F : ((if Rlt_dec 0 t then true else false) && (if Rle_dec (0.5 * t) r then true else false) && (if Rle_dec (r + 0.5 * t) big then true else false))%bool = true <-> fits r t big).
  { unfold fits. destruct (Rlt_dec 0 t), (Rle_dec (0.5 * t) r), (Rle_dec (r + 0.5 * t) big); cbn; split; intro H; try discriminate; try reflexivity; try (destruct H as (H1 & H2 & H3); exfalso; lra). repeat split; lra. }
  cbn [get_thickness_n_radius]. rewrite Ga, Gb, Gc. cbn [rbind]. fold big. destruct ((if Rlt_dec 0 t then true else false) && (if Rle_dec (0.5 * t) r then true else false) && (if Rle_dec (r + 0.5 * t) big then true else false))%bool.
  - assert (fits r t big) by (apply F; reflexivity). split; [reflexivity|]. repeat split; intro; contradiction.
  - assert (NF : ~ fits r t big) by (intro H; apply F in H; discriminate). destruct (project_spec r t big B) as (P1 & P2 & P3 & P4). split; [intro; contradiction|]. split; [|split; [|split]].
    + intros _ H. rewrite (P1 H). cbn [rbind]. eexists. split; [reflexivity|]. cbn. rewrite !get_set_other by assumption. rewrite Ga. cbn. rewrite get_set_same. cbn. rewrite get_set_same. reflexivity.
    + intros _ H1 H2 H3. destruct (P4 H1 H2 H3) as (r' & t' & Q1 & Q2 & Q3 & Q4). rewrite Q1. cbn [rbind]. eexists. exists t', r'. split; [reflexivity|]. split; [cbn; rewrite !get_set_other by assumption; rewrite Ga; cbn; rewrite get_set_same; cbn; rewrite get_set_same; reflexivity|]. split; [exact Q2|]. split; [exact Q3|]. split; [exact Q4|].
      split; [rewrite set_order; assert (K : has kr (set kt (Some t') d) = true) by (apply get_has; rewrite get_set_other by congruence; eauto); rewrite K, set_order; assert (K' : has kt d = true) by (apply get_has; eauto); rewrite K'; reflexivity|]. intros k K1 K2. rewrite !get_set_other by congruence. reflexivity.
    + intros _ H1 H2. rewrite (P2 H1 H2). reflexivity.
    + intros _ H1 H2 H3. rewrite (P3 H1 H2 H3). reflexivity.
Qed.
Print Assumptions C131_region.
Theorem C131_missing : forall kR kt kr d vs, get_all [kR; kt; kr] d = Ok vs -> In None vs -> get_thickness_n_radius [kR; kt; kr] d = Ok d.
Proof.
  intros kR kt kr d vs E I. destruct (get3 _ _ _ _ _ E) as (a & b & c & -> & Ga & Gb & Gc). cbn [get_thickness_n_radius]. rewrite Ga, Gb, Gc. cbn [rbind]. destruct c, b, a; try reflexivity. destruct I as [|[|[|[]]]]; discriminate.
Qed.
Example C131_case : let d := [("R", Some 0); ("t", Some 2); ("r", Some 1)] in NoDup ["R"; "t"; "r"] /\ get_all ["R"; "t"; "r"] d = Ok [Some 0; Some 2; Some 1] /\ ~ fits 1 2 (Rpower 10 0) /\ 1 <> Rpower 10 0 / 2 /\ 2 <> Rpower 10 0 / 3 /\ ~ singular 1 2 (Rpower 10 0).
Proof.
  cbv zeta. rewrite Rpower_O by lra. unfold fits, singular. split; [repeat constructor; cbn; intuition discriminate|]. split; [reflexivity|]. repeat split; lra.
Qed.
(** Regions that do not fit and are not corrected: the thickness is a third of the radius, or the line through the centroid is parallel to a side. *)
Theorem C131_fail_refuted : get_thickness_n_radius ["R"; "t"; "r"] [("R", Some 0); ("t", Some (1 / 3)); ("r", Some 2)] = Raise AssertionError /\
  get_thickness_n_radius ["R"; "t"; "r"] [("R", Some 0); ("t", Some (4 / 3)); ("r", Some 1)] = Raise LinAlgError /\
  ~ (forall kR kt kr d, NoDup [kR; kt; kr] -> (forall k, In k [kR; kt; kr] -> has k d = true) -> exists d', get_thickness_n_radius [kR; kt; kr] d = Ok d').
Proof.
  assert (ND : NoDup ["R"; "t"; "r"]) by (repeat constructor; cbn; intuition discriminate).
  assert (A : get_thickness_n_radius ["R"; "t"; "r"] [("R", Some 0); ("t", Some (1 / 3)); ("r", Some 2)] = Raise AssertionError).
  { pose proof (C131_region "R" "t" "r" [("R", Some 0); ("t", Some (1 / 3)); ("r", Some 2)] 0 (1 / 3) 2 ND eq_refl) as H. cbv zeta in H. rewrite Rpower_O in H by lra. apply H; unfold fits; lra. }
  assert (B : get_thickness_n_radius ["R"; "t"; "r"] [("R", Some 0); ("t", Some (4 / 3)); ("r", Some 1)] = Raise LinAlgError).
  { pose proof (C131_region "R" "t" "r" [("R", Some 0); ("t", Some (4 / 3)); ("r", Some 1)] 0 (4 / 3) 1 ND eq_refl) as H. cbv zeta in H. rewrite Rpower_O in H by lra. apply H; unfold fits, singular; lra. }
  split; [exact A|]. split; [exact B|]. intro H. destruct (H "R" "t" "r" [("R", Some 0); ("t", Some (1 / 3)); ("r", Some 2)] ND) as (d' & E); [intros k [<-|[<-|[<-|[]]]]; reflexivity|]. congruence.
Qed.
Print Assumptions C131_fail_refuted.

(** ** C132: all constraints hold together afterwards *)
(** The laws, in their own units *)
Definition law_holds (l : law) (x : list R) (y : R) : Prop :=
  match l, x with
  | Boltzmann, [log_L; log_R] => 4 * PI * (Rpower 10 log_R * 6.9598e10) ^ 2 * 5.670373e-5 * (Rpower 10 y) ^ 4 = Rpower 10 log_L * 3.8418e33
  | Kepler, [P; m1; m2] => 0 < P -> 0 < m1 + m2 -> 0 < y /\ 4 * c_pi ^ 2 * (y * 6.9598e10) ^ 3 = standard_cgrav * ((m1 + m2) * Msun) * (P * 86400) ^ 2
  | Nuclear, [lh; lhe; lz] => Rpower 10 y = Rpower 10 lh + Rpower 10 lhe + Rpower 10 lz
  | SystemMdot, [_; r] => y <= r
  | Transfer, [s; r] => ((s < -98 \/ r < -98) -> y = 1) /\ (-98 <= s -> -98 <= r -> 0 <= y < 1 /\ Rpower 10 s = (1 - y) * Rpower 10 r)
  | _, _ => False
  end.
Definition law_obeyed (l : law) (dep : string) (indep : list string) (d : dict) : Prop :=
  exists xs y, get_all indep d = Ok xs /\ get dep d = Ok y /\
    ((exists vs v, xs = map Some vs /\ y = Some v /\ law_holds l vs v) \/ (In None xs /\ y = None)).
Definition chain_obeyed (ks : list string) (log : bool) (d : dict) : Prop := exists vals, get_all ks d = Ok vals /\ descending (linear log vals).
Definition region_obeyed (ks : list string) (d : dict) : Prop :=
  exists vals, get_all ks d = Ok vals /\ forall lR t r, vals = [Some lR; Some t; Some r] -> 0 < t /\ t / 2 - EPS <= r /\ r + t / 2 <= Rpower 10 lR + EPS.
Definition sum_obeyed (ks : list string) (c : R) (d : dict) : Prop :=
  exists vals, get_all ks d = Ok vals /\ forall xs, vals = map Some xs -> Rabs (total xs - c) <= EPS.
(** A constraint holds of [d'], got from [d], for the stars there are *)
Definition obeyed (d d' : dict) (c : constraint) : Prop :=
  match c with
  | Law l dep indep => forall star, star = "1" \/ (star = "2" /\ braces dep = true /\ has (format dep "2") d = true) -> law_obeyed l (format dep star) (map (fun k => format k star) indep) d'
  | Inequality fields log => forall star ks, star = "1" \/ (star = "2" /\ has "S1_log_R" d = true /\ has "S2_log_R" d = true) -> In ks fields -> chain_obeyed (map (fun k => format k star) ks) log d'
  | Thickness fields => forall star ks, star = "1" \/ (star = "2" /\ has "S1_log_R" d = true /\ has "S2_log_R" d = true) -> In ks fields -> region_obeyed (map (fun k => format k star) ks) d'
  | Total fields (Number c) => forall star, star = "1" \/ (star = "2" /\ has "S1_log_R" d = true /\ has "S2_log_R" d = true) -> sum_obeyed (map (fun k => format k star) fields) c d'
  | Total _ (Field _) => True
  end.

(** The steps, one by one *)
Inductive action := ALaw (l : law) (dep : string) (indep : list string) | AChain (ks : list string) (log : bool) | AThick (ks : list string) | ASum (ks : list string) (c : target).
Definition perform (a : action) (d : dict) : result dict :=
  match a with
  | ALaw l dep indep => rbind (get_all indep d) (fun xs => rbind (match all_finite xs with Some vs => law_function l vs | None => Ok None end) (fun y => Ok (set dep y d)))
  | AChain ks log => correct_one log ks d
  | AThick ks => get_thickness_n_radius ks d
  | ASum ks c => correct_sum ks c d
  end.
Definition done (a : action) (d : dict) : Prop :=
  match a with
  | ALaw l dep indep => law_obeyed l dep indep d
  | AChain ks log => chain_obeyed ks log d
  | AThick ks => region_obeyed ks d
  | ASum ks (Number c) => sum_obeyed ks c d
  | ASum _ (Field _) => True
  end.
Definition writes (a : action) : list string := match a with ALaw _ dep _ => [dep] | AChain ks _ => tl ks | AThick ks => tl ks | ASum ks _ => ks end.
Definition touches (a : action) : list string := match a with ALaw _ dep indep => dep :: indep | AChain ks _ => ks | AThick ks => ks | ASum ks _ => ks end.
Definition inb (k : string) (l : list string) : bool := existsb (String.eqb k) l.
Fixpoint nodupb (l : list string) : bool := match l with [] => true | k :: l' => negb (inb k l') && nodupb l' end.
Definition law_shape (l : law) (dep : string) (indep : list string) : bool :=
  match l, indep with
  | Boltzmann, [_; _] | Kepler, [_; _; _] | Nuclear, [_; _; _] | Transfer, [_; _] => negb (inb dep indep)
  | SystemMdot, [s; r] => String.eqb s dep && negb (String.eqb r dep)
  | _, _ => false
  end.
Definition good (a : action) : bool :=
  match a with ALaw l dep indep => law_shape l dep indep | AChain ks _ => match ks with [] => false | _ => nodupb ks end | AThick ks => nodupb ks && (length ks =? 3)%nat | ASum ks (Number _) => match ks with [] => false | _ => nodupb ks end | ASum _ (Field _) => false end.

Lemma inb_iff k l : inb k l = true <-> In k l.
Proof. unfold inb. rewrite existsb_exists. split; [intros (x & I & E); apply String.eqb_eq in E; subst; exact I|intro I; exists k; split; [exact I|apply String.eqb_refl]]. Qed.
Lemma nodupb_iff l : nodupb l = true -> NoDup l.
Proof. induction l as [|k l IH]; intro H; [constructor|]. cbn in H. apply andb_prop in H as [H1 H2]. constructor; [intro I; apply inb_iff in I; rewrite I in H1; discriminate|apply IH; exact H2]. Qed.
Lemma finite_some l vs : all_finite l = Some vs -> l = map Some vs.
Proof. revert vs. induction l as [|[x|] l IH]; intros vs E; cbn in E; [assert (vs = []) by congruence; subst; reflexivity| |discriminate]. destruct (all_finite l) as [ws|]; cbn in E; [|discriminate]. assert (vs = x :: ws) by congruence. subst vs. cbn. rewrite (IH ws eq_refl). reflexivity. Qed.
Lemma finite_none l : all_finite l = None -> In None l.
Proof. induction l as [|[x|] l IH]; intro E; cbn in E; [discriminate| |left; reflexivity]. right. apply IH. destruct (all_finite l); [discriminate|reflexivity]. Qed.
Lemma some_not_none vs : ~ In None (map Some vs : list fl).
Proof. intro I. apply in_map_iff in I as (x & E & _). discriminate. Qed.

Lemma ten_log10 x : 0 < x -> Rpower 10 (log10 x) = x.
Proof. intro H. unfold Rpower, log10. assert (0 < ln 10) by (rewrite <- ln_1; apply ln_increasing; lra). replace (ln x / ln 10 * ln 10) with (ln x) by (field; lra). apply exp_ln. exact H. Qed.
Lemma root_pow x n : (0 < n)%nat -> 0 < x -> Rpower x (1 / INR n) ^ n = x.
Proof. intros N H. rewrite <- Rpower_pow by apply exp_pos. rewrite Rpower_mult. replace (1 / INR n * INR n) with 1 by (field; apply not_0_INR; lia). apply Rpower_1. exact H. Qed.
Lemma law_function_holds l dep indep vs v : law_shape l dep indep = true -> l <> SystemMdot -> law_function l vs = Ok v -> exists y, v = Some y /\ law_holds l vs y.
Proof.
  intros _ NS E. destruct l; [| | |congruence|].
  - destruct vs as [|a [|b [|]]]; try discriminate E. cbn [law_function] in E. set (y := log10 _) in E. exists y. split; [congruence|]. cbn [law_holds]. unfold y. rewrite ten_log10 by apply exp_pos. unfold stefan_boltzmann_law.
    pose proof (exp_pos (a * ln 10)) as PL. pose proof (exp_pos (b * ln 10)) as PR. fold (Rpower 10 a) in PL. fold (Rpower 10 b) in PR. pose proof PI_RGT_0. set (L := Rpower 10 a) in *. set (Q := Rpower 10 b) in *.
    assert (HX : 0 < L * Lsun / (4 * PI * (Q * Rsun) ^ 2) / boltz_sigma). { unfold Lsun, Rsun, boltz_sigma. assert (0 < Q * 6.9598e10) by lra. assert (0 < (Q * 6.9598e10) ^ 2) by (apply pow_lt; assumption). apply Rdiv_lt_0_compat; [|lra]. apply Rdiv_lt_0_compat; [lra|]. apply Rmult_lt_0_compat; lra. }
    pose proof (root_pow _ 4 ltac:(lia) HX) as RP. replace (INR 4) with 4 in RP by (cbn; ring). rewrite RP. change Lsun with 3.8418e33. change Rsun with 6.9598e10. change boltz_sigma with 5.670373e-5.
    set (A := 5.670373e-5). set (B := 6.9598e10). set (C := 3.8418e33). assert (A <> 0) by (unfold A; lra). assert (B <> 0) by (unfold B; lra). clearbody A B C. field. repeat split; lra.
  - destruct vs as [|P [|m1 [|m2 [|]]]]; try discriminate E. cbn [law_function] in E. eexists. split; [symmetry; assert (H : forall A (x y : A), Ok x = Ok y -> x = y) by congruence; apply H; exact E|]. cbn [law_holds]. intros HP HM. unfold orbital_separation_from_period.
    set (X := standard_cgrav * (m1 * Msun + m2 * Msun) / (4 * c_pi ^ 2) * (P * day2sec) ^ 2). assert (HX : 0 < X). { unfold X. assert (0 < (m1 + m2) * Msun) by (apply Rmult_lt_0_compat; [lra|unfold Msun; lra]). apply Rmult_lt_0_compat; [|apply pow_lt; unfold day2sec; lra]. apply Rdiv_lt_0_compat; [apply Rmult_lt_0_compat; [unfold standard_cgrav; lra|lra]|]. apply Rmult_lt_0_compat; [lra|]. apply pow_lt. unfold c_pi. lra. }
    split; [apply Rdiv_lt_0_compat; [apply exp_pos|unfold Rsun; lra]|]. replace (Rpower X (1 / 3) / Rsun * 6.9598e10) with (Rpower X (1 / 3)) by (unfold Rsun; field; lra).
    pose proof (root_pow X 3 ltac:(lia) HX) as RP. replace (INR 3) with 3 in RP by (cbn; ring). rewrite RP. unfold X. replace day2sec with 86400 by (unfold day2sec; lra). field. unfold c_pi. lra.
  - destruct vs as [|a [|b [|c [|]]]]; try discriminate E. cbn [law_function] in E. set (y := log10 _) in E. exists y. split; [congruence|]. cbn [law_holds]. unfold y. apply ten_log10. pose proof (exp_pos (a * ln 10)). pose proof (exp_pos (b * ln 10)). pose proof (exp_pos (c * ln 10)). unfold Rpower. lra.
  - destruct vs as [|s [|r [|]]]; try discriminate E. cbn [law_function] in E. destruct (Rlt_dec s (-98)); [exists 1; split; [congruence|]; cbn [law_holds]; split; [reflexivity|lra]|]. destruct (Rlt_dec r (-98)); [exists 1; split; [congruence|]; cbn [law_holds]; split; [reflexivity|lra]|]. destruct (Rle_dec s r) as [L|]; [|discriminate E].
    exists (1 - Rpower 10 (s - r)). split; [congruence|]. cbn [law_holds]. split; [lra|]. intros _ _. pose proof (exp_pos ((s - r) * ln 10)) as EP. fold (Rpower 10 (s - r)) in EP. assert (LE : Rpower 10 (s - r) <= 1). { replace 1 with (Rpower 10 0) by (apply Rpower_O; lra). destruct (Rle_lt_or_eq_dec _ _ L) as [LT| ->]; [|replace (r - r) with 0 by ring; lra]. left. apply Rpower_lt; lra. }
    split; [lra|]. replace (1 - (1 - Rpower 10 (s - r))) with (Rpower 10 (s - r)) by ring. rewrite <- Rpower_plus. f_equal. ring.
Qed.

Lemma perform_frame a d d' : good a = true -> perform a d = Ok d' -> (forall k, ~ In k (writes a) -> get k d' = get k d).
Proof.
  intros W E k NK. destruct a as [l dep indep|ks log|ks|ks c]; cbn in *.
  - destruct (get_all indep d) as [xs|]; [|discriminate E]. cbn in E. destruct (match all_finite xs with Some vs => law_function l vs | None => Ok None end) as [f|]; [|discriminate E]. cbn in E. assert (d' = set dep f d) by congruence. subst d'. apply get_set_other. intro Q. apply NK. left. exact Q.
  - destruct ks as [|k0 ks]; [discriminate|]. pose proof (nodupb_iff _ W) as ND. inversion ND as [|? ? NI ND']; subst. cbn [tl] in NK. unfold correct_one in E. destruct (get_all (k0 :: ks) d) as [vs|] eqn:G; [|discriminate E]. cbn [rbind] in E. destruct vs as [|v vs]; [destruct log; [discriminate E|congruence]|]. cbn [get_all] in G. destruct (get k0 d); [|discriminate G]. cbn in G. destruct (get_all ks d) as [vs2|] eqn:GA; [|discriminate G]. cbn in G. assert (vs2 = vs) by congruence. subst vs2.
    assert (D : d' = descend (if log then lift1 (Rpower 10) v else v) vs ks d) by congruence. subst d'. apply (descend_spec ks vs _ d ND' GA). exact NK.
  - apply andb_prop in W as [W L]. destruct ks as [|k0 [|k1 [|k2 [|]]]]; try discriminate L. cbn in E, NK. destruct (get k2 d) as [r|]; [|discriminate E]. cbn in E. destruct (get k1 d) as [t|]; [|discriminate E]. cbn in E. destruct (get k0 d) as [lR|]; [|discriminate E]. cbn in E. destruct r as [r|], t as [t|], lR as [lR|]; try congruence.
    match type of E with (if ?b then _ else _) = _ => destruct b end; [congruence|]. destruct (project r t (Rpower 10 lR)) as [[r' t']|]; [|discriminate E]. cbn in E. assert (D : d' = set k2 (Some r') (set k1 (Some t') d)) by congruence. rewrite D. rewrite !get_set_other; [reflexivity| |]; intro Q; apply NK; auto.
  - destruct c as [c|]; [|discriminate W]. assert (ND : NoDup ks) by (apply nodupb_iff; destruct ks; [discriminate W|exact W]). unfold correct_sum in E. destruct (get_all ks d) as [vs|] eqn:G; [|discriminate E]. cbn in E. match type of E with (if ?b then _ else _) = _ => destruct b end; [|congruence].
    destruct (rescale_spec (Some c) (fsum vs) ks d vs ND G) as (d2 & R1 & R2 & R3 & R4). assert (d2 = d') by congruence. subst d2. apply R4. exact NK.
Qed.

Lemma fits_dec r t big : fits r t big \/ ~ fits r t big.
Proof. unfold fits. destruct (Rlt_dec 0 t), (Rle_dec (t / 2) r), (Rle_dec (r + t / 2) big); tauto. Qed.
Lemma singular_dec r t big : singular r t big \/ ~ singular r t big.
Proof. unfold singular. destruct (Req_EM_T (2 * (r - big / 2)) (t - big / 3)), (Req_EM_T (2 * (r - big / 2)) (- (t - big / 3))); tauto. Qed.
Lemma perform_done a d d' : good a = true -> perform a d = Ok d' -> done a d'.
Proof.
  intros W E. destruct a as [l dep indep|ks log|ks|ks c]; cbn [perform done] in *.
  - unfold law_obeyed. destruct (get_all indep d) as [xs|] eqn:G; [|discriminate E]. cbn in E. destruct (match all_finite xs with Some vs => law_function l vs | None => Ok None end) as [y|] eqn:LF; [|discriminate E]. cbn in E. assert (D : d' = set dep y d) by congruence. rewrite D. clear E D.
    assert (CASES : l = SystemMdot \/ (l <> SystemMdot /\ ~ In dep indep)). { unfold good, law_shape in W. destruct l; [right|right|right|left; reflexivity|right]; (split; [discriminate|]); intro I; apply inb_iff in I; destruct indep as [|? [|? [|? [|]]]]; try discriminate W; rewrite I in W; discriminate W. }
    destruct CASES as [-> | (NS & NI)].
    + cbn in W. destruct indep as [|s [|r [|]]]; try discriminate W. apply andb_prop in W as [W1 W2]. apply String.eqb_eq in W1. subst s. assert (NR : dep <> r) by (intro Q; subst r; rewrite String.eqb_refl in W2; discriminate W2). cbn in G. destruct (get dep d) as [s|]; [|discriminate G]. cbn in G. destruct (get r d) as [q|] eqn:GR; [|discriminate G]. cbn in G. assert (xs = [s; q]) by congruence. subst xs.
      exists [y; q], y. split; [cbn; rewrite get_set_same; cbn; rewrite get_set_other by exact NR; rewrite GR; reflexivity|]. split; [apply get_set_same|].
      destruct s as [s|], q as [q|]; cbn in LF; try (right; split; [cbn; solve [auto]|congruence]). { left. exists [Rmin s q; q], (Rmin s q). assert (y = Some (Rmin s q)) by congruence. subst y. split; [reflexivity|]. split; [reflexivity|]. cbn. apply Rmin_r. } right. assert (y = None) by congruence. subst y. split; [left; reflexivity|reflexivity].
    + exists xs, y. split; [rewrite (get_all_ext indep d); [exact G|]; intros k I; apply get_set_other; intro Q; subst k; contradiction|]. split; [apply get_set_same|]. destruct (all_finite xs) as [vs|] eqn:AF.
      * left. destruct (law_function_holds l dep indep vs y W NS LF) as (v & -> & H). exists vs, v. split; [apply finite_some; exact AF|]. split; [reflexivity|exact H].
      * right. split; [apply finite_none; exact AF|congruence].
  - cbn in W. destruct ks as [|k0 ks]; [discriminate|]. destruct (C129_chain log (k0 :: ks) d d' (nodupb_iff _ W) ltac:(discriminate) E) as (vals & vals' & _ & G & DES & _). exists vals'. split; [exact G|exact DES].
  - cbn in W. apply andb_prop in W as [W L]. destruct ks as [|k0 [|k1 [|k2 [|]]]]; try discriminate L. pose proof (nodupb_iff _ W) as ND. pose proof E as E0. cbn in E. destruct (get k2 d) as [r|] eqn:Gr; [|discriminate E]. cbn in E. destruct (get k1 d) as [t|] eqn:Gt; [|discriminate E]. cbn in E. destruct (get k0 d) as [lR|] eqn:GR; [|discriminate E]. clear E.
    assert (GA : get_all [k0; k1; k2] d = Ok [lR; t; r]) by (cbn; rewrite GR; cbn; rewrite Gt; cbn; rewrite Gr; reflexivity).
    assert (NN : In None [lR; t; r] -> region_obeyed [k0; k1; k2] d'). { intro I. rewrite (C131_missing _ _ _ _ _ GA I) in E0. assert (d' = d) by congruence. subst d'. exists [lR; t; r]. split; [exact GA|]. intros a b c Q. exfalso. rewrite Q in I. destruct I as [|[|[|[]]]]; discriminate. }
    destruct r as [r|]; [|apply NN; cbn; auto]. destruct t as [t|]; [|apply NN; cbn; auto]. destruct lR as [lR|]; [|apply NN; cbn; auto]. clear NN.
    destruct (C131_region k0 k1 k2 d lR t r ND GA) as (P1 & P2 & P3 & P4 & P5). set (big := Rpower 10 lR) in *.
    pose proof (fits_dec r t big) as FD.
    destruct FD as [F|F]; [rewrite (P1 F) in E0; assert (d' = d) by congruence; subst d'; exists [Some lR; Some t; Some r]; split; [exact GA|]; intros a b c Q; assert (a = lR /\ b = t /\ c = r) as (-> & -> & ->) by (repeat split; congruence); fold big; unfold fits in F; unfold EPS; repeat split; lra|].
    destruct (Req_EM_T r (big / 2)) as [H|H].
    + destruct (P2 F H) as (d2 & Q1 & Q2). assert (d2 = d') by congruence. subst d2. eexists. split; [exact Q2|]. intros a b c Q. assert (a = lR /\ b = big /\ c = big / 2) as (-> & -> & ->) by (repeat split; congruence). fold big. assert (0 < big) by apply exp_pos. unfold EPS. repeat split; lra.
    + destruct (Req_EM_T t (big / 3)) as [H2|H2]; [rewrite (P4 F H H2) in E0; discriminate E0|].
      pose proof (singular_dec r t big) as SD. destruct SD as [SD|SD]; [rewrite (P5 F H H2 SD) in E0; discriminate E0|].
      destruct (P3 F H H2 SD) as (d2 & t' & r' & Q1 & Q2 & Q3 & _). assert (d2 = d') by congruence. subst d2. eexists. split; [exact Q2|]. intros a b c Q. assert (a = lR /\ b = t' /\ c = r') as (-> & -> & ->) by (repeat split; congruence). fold big. exact Q3.
  - destruct c as [c|]; [|exact I]. cbn in W. assert (ND : NoDup ks) by (apply nodupb_iff; destruct ks; [discriminate W|exact W]). pose proof E as E0. unfold correct_sum in E. destruct (get_all ks d) as [vs|] eqn:G; [|discriminate E]. clear E. destruct (all_finite vs) as [xs|] eqn:AF.
    + apply finite_some in AF. subst vs. destruct (C130_sum ks c d xs ND G) as (P1 & P2 & P3). destruct (Rle_dec (Rabs (total xs - c)) EPS) as [L|L].
      * rewrite (P1 L) in E0. assert (d' = d) by congruence. subst d'. exists (map Some xs). split; [exact G|]. intros ys Q. assert (ys = xs) by (apply (f_equal (map (fun o : fl => match o with Some z => z | None => 0 end))) in Q; rewrite !map_map, !map_id in Q; congruence). subst ys. exact L.
      * destruct (Req_EM_T (total xs) 0) as [Z|Z].
        -- destruct (P3 ltac:(lra) Z) as (d2 & Q1 & Q2). assert (d2 = d') by congruence. subst d2. eexists. split; [exact Q2|]. intros ys Q. destruct xs as [|x xs]; destruct ys as [|y ys]; try discriminate Q. exfalso. apply get_all_length in G. destruct ks; [discriminate W|discriminate G].
        -- destruct (P2 ltac:(lra) Z) as (d2 & ys & Q1 & Q2 & Q3 & _). assert (d2 = d') by congruence. subst d2. eexists. split; [exact Q2|]. intros zs Q. assert (zs = ys) by (apply (f_equal (map (fun o : fl => match o with Some z => z | None => 0 end))) in Q; rewrite !map_map, !map_id in Q; congruence). subst zs. rewrite Q3. replace (c - c) with 0 by ring. rewrite Rabs_R0. unfold EPS. lra.
    + rewrite (C130_missing ks c d vs G (finite_none _ AF)) in E0. assert (d' = d) by congruence. subst d'. exists vs. split; [exact G|]. intros xs Q. exfalso. apply finite_none in AF. rewrite Q in AF. exact (some_not_none _ AF).
Qed.

Lemma done_frame a d d' : (forall k, In k (touches a) -> get k d' = get k d) -> done a d -> done a d'.
Proof.
  intros F D. destruct a as [l dep indep|ks log|ks|ks [c|]]; cbn in F, D |- *; [| | | |exact I].
  - destruct D as (xs & y & G & GY & H). exists xs, y. split; [rewrite (get_all_ext indep d); [exact G|]; intros k K; apply F; right; exact K|]. split; [rewrite F by (left; reflexivity); exact GY|exact H].
  - destruct D as (vals & G & H). exists vals. split; [rewrite (get_all_ext ks d) by exact F; exact G|exact H].
  - destruct D as (vals & G & H). exists vals. split; [rewrite (get_all_ext ks d) by exact F; exact G|exact H].
  - destruct D as (vals & G & H). exists vals. split; [rewrite (get_all_ext ks d) by exact F; exact G|exact H].
Qed.
(** [b] after [a] spoils nothing: it writes nothing that [a] is about, or bounds the rate that [a] has bounded or used already. *)
Definition special (a b : action) : bool :=
  match a, b with
  | ALaw SystemMdot dep [s; r], AChain [r'; s'] false => String.eqb s dep && String.eqb s s' && String.eqb r r' && negb (String.eqb r s)
  | ALaw Transfer dep [s; r], AChain [r'; s'] false => String.eqb s s' && String.eqb r r' && negb (String.eqb r s) && negb (String.eqb dep s)
  | _, _ => false
  end.
Definition compatible (a b : action) : bool := forallb (fun k => negb (inb k (touches a))) (writes b) || special a b.
Lemma special_inv a b : special a b = true -> exists dep s r, b = AChain [r; s] false /\ r <> s /\ ((a = ALaw SystemMdot dep [s; r] /\ s = dep) \/ (a = ALaw Transfer dep [s; r] /\ dep <> s)).
Proof.
  unfold special. destruct a as [l dep indep| | |]; try discriminate. destruct l; try discriminate; destruct indep as [|s [|r [|]]]; try discriminate; destruct b as [|[|r' [|s' [|]]] [|]| |]; try discriminate; intro H.
  - apply andb_prop in H as [H H4]. apply andb_prop in H as [H H3]. apply andb_prop in H as [H1 H2]. apply String.eqb_eq in H1, H2, H3. subst dep s' r'. exists s, s, r. split; [reflexivity|]. split; [intro Q; subst; rewrite String.eqb_refl in H4; discriminate|]. left. split; reflexivity.
  - apply andb_prop in H as [H H4]. apply andb_prop in H as [H H3]. apply andb_prop in H as [H1 H2]. apply String.eqb_eq in H1, H2. subst s' r'. exists dep, s, r. split; [reflexivity|]. split; [intro Q; subst; rewrite String.eqb_refl in H3; discriminate|]. right. split; [reflexivity|]. intro Q. subst. rewrite String.eqb_refl in H4. discriminate.
Qed.
Lemma pair_step r s d d' x y : r <> s -> get r d = Ok x -> get s d = Ok y -> correct_one false [r; s] d = Ok d' ->
  match x, y with Some p, Some q => if Rlt_dec p q then d' = set s (Some p) d else d' = d | _, _ => d' = d end.
Proof. intros N GX GY E. unfold correct_one in E. cbn in E. rewrite GX in E. cbn in E. rewrite GY in E. cbn in E. destruct x as [p|], y as [q|]; try congruence. destruct (Rlt_dec p q); congruence. Qed.
Lemma compatible_keeps a b d d' : good b = true -> compatible a b = true -> perform b d = Ok d' -> done a d -> done a d'.
Proof.
  intros W C E D. apply orb_prop in C as [C|C].
  - apply (done_frame a d); [|exact D]. intros k K. apply (perform_frame b d d' W E). intro I. rewrite forallb_forall in C. specialize (C k I). assert (H : inb k (touches a) = true) by (apply inb_iff; exact K). rewrite H in C. discriminate C.
  - apply special_inv in C as (dep & s & r & -> & N & [(-> & ->)|(-> & NS)]); cbn [perform] in E.
    + destruct D as (xs & y & G & GY & H). cbn in G. rewrite GY in G. cbn in G. destruct (get r d) as [q|] eqn:GR; [|discriminate G]. cbn in G. assert (X : xs = [y; q]) by congruence.
      pose proof (pair_step r dep d d' q y N GR GY E) as P. assert (SAME : d' = d). { destruct q as [p|], y as [z|]; try exact P. destruct H as [(vs & v & V1 & V2 & H)|[_ H]]; [|discriminate H]. assert (v = z) by congruence. destruct vs as [|v1 [|v2 [|]]]; try (rewrite X in V1; discriminate V1). cbn in H. assert (v2 = p) by (rewrite X in V1; cbn in V1; congruence). destruct (Rlt_dec p z); [lra|exact P]. }
      subst d'. exists xs, y. split; [cbn; rewrite GY; cbn; rewrite GR; cbn; congruence|]. split; [exact GY|exact H].
    + destruct D as (xs & y & G & GY & H). cbn in G. destruct (get s d) as [x|] eqn:GS; [|discriminate G]. cbn in G. destruct (get r d) as [q|] eqn:GR; [|discriminate G]. cbn in G. assert (X : xs = [x; q]) by congruence. clear G. subst xs.
      pose proof (pair_step r s d d' q x N GR GS E) as P. assert (KEEP : d' = d -> done (ALaw Transfer dep [s; r]) d') by (intros ->; exists [x; q], y; split; [cbn; rewrite GS; cbn; rewrite GR; reflexivity|]; split; [exact GY|exact H]).
      destruct q as [p|], x as [z|]; try (apply KEEP; exact P). destruct (Rlt_dec p z) as [LT|]; [|apply KEEP; exact P]. clear KEEP. subst d'.
      destruct H as [(vs & v & V1 & V2 & H)|[H _]]; [|destruct H as [|[|[]]]; discriminate]. destruct vs as [|v1 [|v2 [|]]]; try discriminate V1. assert (v1 = z /\ v2 = p) as (-> & ->) by (cbn in V1; split; congruence). cbn in H. destruct H as [H1 H2].
      assert (LOW : p < -98). { destruct (Rlt_dec p (-98)); [assumption|]. exfalso. destruct (H2 ltac:(lra) ltac:(lra)) as [Y EQ]. pose proof (Rpower_lt 10 p z ltac:(lra) LT). pose proof (exp_pos (p * ln 10)) as EP. fold (Rpower 10 p) in EP. nra. }
      exists [Some p; Some p], y. split; [cbn; rewrite get_set_same; cbn; rewrite get_set_other by congruence; rewrite GR; reflexivity|]. split; [rewrite get_set_other by congruence; exact GY|]. left. exists [p; p], v. split; [reflexivity|]. split; [exact V2|]. cbn. split; [intros _; apply H1; right; exact LOW|lra].
Qed.

(** Sequences of actions *)
Inductive sub {A} : list A -> list A -> Prop := sub_nil l : sub [] l | sub_skip x l l' : sub l l' -> sub l (x :: l') | sub_take x l l' : sub l l' -> sub (x :: l) (x :: l').
Lemma sub_refl {A} (l : list A) : sub l l.
Proof. induction l; [apply sub_nil|apply sub_take; assumption]. Qed.
Lemma sub_app {A} (a a' b b' : list A) : sub a a' -> sub b b' -> sub (a ++ b) (a' ++ b').
Proof. intros H K. induction H as [l|x l l' _ IH|x l l' _ IH]; cbn; [induction l; [exact K|apply sub_skip; assumption]|apply sub_skip; exact IH|apply sub_take; exact IH]. Qed.
Lemma sub_in {A} (a b : list A) x : sub a b -> In x a -> In x b.
Proof. induction 1 as [l|y l l' _ IH|y l l' _ IH]; intro I; [contradiction|right; apply IH; exact I|]. destruct I as [->|I]; [left; reflexivity|right; apply IH; exact I]. Qed.
Lemma sub_map {A B} (f : A -> B) a b : sub a b -> sub (map f a) (map f b).
Proof. induction 1; cbn; [apply sub_nil|apply sub_skip|apply sub_take]; assumption. Qed.
Lemma sub_filter {A} (f : A -> bool) l : sub (filter f l) l.
Proof. induction l as [|x l IH]; cbn; [apply sub_nil|]. destruct (f x); [apply sub_take|apply sub_skip]; exact IH. Qed.
Fixpoint orderly (l : list action) : bool := match l with [] => true | a :: l' => good a && forallb (compatible a) l' && orderly l' end.
Lemma orderly_sub a b : sub a b -> orderly b = true -> orderly a = true.
Proof.
  induction 1 as [l|x l l' H IH|x l l' H IH]; intro O; [reflexivity| |]; cbn in O; apply andb_prop in O as [O1 O2]; [apply IH; exact O2|]. apply andb_prop in O1 as [O0 O1]. cbn. rewrite O0, (IH O2), andb_true_r. cbn. rewrite forallb_forall in O1 |- *. intros y I. apply O1. apply (sub_in _ _ _ H I).
Qed.
Lemma over_app {A} (f : A -> dict -> result dict) l1 l2 d : over f (l1 ++ l2) d = rbind (over f l1 d) (over f l2).
Proof. revert d. induction l1 as [|x l1 IH]; intro d; cbn; [reflexivity|]. destruct (f x d); cbn; [apply IH|reflexivity]. Qed.
Lemma over_keeps l a : forall d d', forallb (compatible a) l = true -> orderly l = true -> over perform l d = Ok d' -> done a d -> done a d'.
Proof.
  induction l as [|b l IH]; intros d d' C O E D; [cbn in E; assert (d' = d) by congruence; subst; exact D|]. cbn in C, O, E. apply andb_prop in C as [C1 C2]. apply andb_prop in O as [O1 O2]. apply andb_prop in O1 as [O0 _]. destruct (perform b d) as [d1|] eqn:P; [|discriminate E]. cbn in E. apply (IH d1 d' C2 O2 E). apply (compatible_keeps a b d d1 O0 C1 P D).
Qed.
Lemma over_done l : forall d d', orderly l = true -> over perform l d = Ok d' -> forall a, In a l -> done a d'.
Proof.
  induction l as [|b l IH]; intros d d' O E a I; [contradiction|]. cbn in O, E. apply andb_prop in O as [O1 O2]. apply andb_prop in O1 as [O0 O1]. destruct (perform b d) as [d1|] eqn:P; [|discriminate E]. cbn in E. destruct I as [->|I]; [|apply (IH d1 d' O2 E a I)].
  apply (over_keeps l a d1 d' O1 O2 E). apply (perform_done a d d1 O0 P).
Qed.

Definition actions (lstars stars : list string) (c : constraint) : list action :=
  match c with
  | Law l dep indep => map (fun star => ALaw l (format dep star) (map (fun k => format k star) indep)) lstars
  | Inequality fields log => flat_map (fun star => map (fun ks => AChain (map (fun k => format k star) ks) log) fields) stars
  | Thickness fields => flat_map (fun star => map (fun ks => AThick (map (fun k => format k star) ks)) fields) stars
  | Total fields c => map (fun star => ASum (map (fun k => format k star) fields) c) stars
  end.
Definition all_actions (c : constraint) : list action := actions (match c with Law _ dep _ => if braces dep then ["1"; "2"] else ["1"] | _ => [] end) ["1"; "2"] c.
Lemma all_orderly : orderly (flat_map all_actions CONSTRAINTS) = true.
Proof. vm_compute. reflexivity. Qed.

(** Keys stay, in their order; only dependent quantities are added *)
Definition added (d d' : dict) (P : string -> Prop) : Prop := exists extra, map fst d' = map fst d ++ extra /\ forall k, In k extra -> P k.
Lemma perform_order a d d' : good a = true -> perform a d = Ok d' -> added d d' (fun k => match a with ALaw l dep _ => l <> SystemMdot /\ k = dep | _ => False end).
Proof.
  intros W E. assert (SAME : map fst d' = map fst d -> added d d' (fun k => match a with ALaw l dep _ => l <> SystemMdot /\ k = dep | _ => False end)) by (intro H; exists []; split; [rewrite app_nil_r; exact H|intros k []]).
  destruct a as [l dep indep|ks log|ks|ks c]; cbn [perform good] in *.
  - destruct (get_all indep d) as [xs|] eqn:G; [|discriminate E]. cbn in E. destruct (match all_finite xs with Some vs => law_function l vs | None => Ok None end) as [y|]; [|discriminate E]. cbn in E. assert (D : d' = set dep y d) by congruence. subst d'. destruct (has dep d) eqn:H; [apply SAME; rewrite set_order, H; reflexivity|]. exists [dep]. split; [rewrite set_order, H; reflexivity|]. intros k [<-|[]]. split; [|reflexivity]. intros ->.
    cbn in W. destruct indep as [|s [|r [|]]]; try discriminate W. apply andb_prop in W as [W _]. apply String.eqb_eq in W. subst s. cbn in G. destruct (get dep d) as [v|] eqn:GD; [|discriminate G]. assert (K : has dep d = true) by (apply get_has; eauto). congruence.
  - destruct ks as [|k0 ks]; [discriminate|]. apply SAME. destruct (C129_chain log (k0 :: ks) d d' (nodupb_iff _ W) ltac:(discriminate) E) as (? & ? & _ & _ & _ & O & _). exact O.
  - apply andb_prop in W as [W L]. destruct ks as [|k0 [|k1 [|k2 [|]]]]; try discriminate L. apply SAME. cbn in E. destruct (get k2 d) as [r|] eqn:G2; [|discriminate E]. cbn in E. destruct (get k1 d) as [t|] eqn:G1; [|discriminate E]. cbn in E. destruct (get k0 d) as [lR|]; [|discriminate E]. cbn in E. destruct r as [r|], t as [t|], lR as [lR|]; try congruence.
    match type of E with (if ?b then _ else _) = _ => destruct b end; [congruence|]. destruct (project r t (Rpower 10 lR)) as [[r' t']|]; [|discriminate E]. cbn in E. assert (D : d' = set k2 (Some r') (set k1 (Some t') d)) by congruence. rewrite D.
    assert (K1 : has k1 d = true) by (apply get_has; eauto). assert (K2 : has k2 (set k1 (Some t') d) = true) by (apply get_has; destruct (string_dec k1 k2) as [->|N]; [rewrite get_set_same; eauto|rewrite get_set_other by exact N; eauto]). rewrite set_order, K2, set_order, K1. reflexivity.
  - destruct c as [c|]; [|discriminate W]. assert (ND : NoDup ks) by (apply nodupb_iff; destruct ks; [discriminate W|exact W]). apply SAME. unfold correct_sum in E. destruct (get_all ks d) as [vs|] eqn:G; [|discriminate E]. cbn in E. match type of E with (if ?b then _ else _) = _ => destruct b end; [|congruence].
    destruct (rescale_spec (Some c) (fsum vs) ks d vs ND G) as (d2 & R1 & R2 & R3 & R4). assert (d2 = d') by congruence. subst d2. exact R3.
Qed.
Lemma added_has d d' P k : added d d' P -> has k d = true -> has k d' = true.
Proof.
  intros (ex & E & _) H. assert (IFF : forall d, has k d = true <-> In k (map fst d)). { intro q. unfold has. rewrite existsb_exists, in_map_iff. split; [intros (x & I & Q); exists x; apply String.eqb_eq in Q; auto|intros (x & Q & I); exists x; split; [exact I|]; rewrite Q; apply String.eqb_refl]. }
  apply IFF. rewrite E. apply in_or_app. left. apply IFF. exact H.
Qed.
Lemma over_order l (P : string -> Prop) : forall d d', orderly l = true -> (forall a, In a l -> match a with ALaw f dep _ => f <> SystemMdot -> P dep | _ => True end) -> over perform l d = Ok d' -> added d d' P.
Proof.
  induction l as [|a l IH]; intros d d' O HP E; [cbn in E; assert (d' = d) by congruence; subst; exists []; split; [rewrite app_nil_r; reflexivity|intros k []]|]. cbn in O, E. apply andb_prop in O as [O1 O2]. apply andb_prop in O1 as [O0 _]. destruct (perform a d) as [d1|] eqn:PA; [|discriminate E]. cbn in E.
  destruct (perform_order a d d1 O0 PA) as (e1 & E1 & P1). destruct (IH d1 d' O2 (fun b I => HP b (or_intror I)) E) as (e2 & E2 & P2). exists (e1 ++ e2). split; [rewrite E2, E1, app_assoc; reflexivity|]. intros k K. apply in_app_or in K as [K|K]; [|apply P2; exact K]. specialize (P1 k K). specialize (HP a (or_introl eq_refl)). destruct a as [f dep i| | |]; try contradiction. destruct P1 as [P1 ->]. apply HP. exact P1.
Qed.

(** The run as a sequence of actions *)
Lemma over_map {A B} (f : B -> dict -> result dict) (g : A -> B) l d : over f (map g l) d = over (fun x => f (g x)) l d.
Proof. revert d. induction l as [|x l IH]; intro d; cbn; [reflexivity|]. destruct (f (g x) d); cbn; [apply IH|reflexivity]. Qed.
Lemma over_flat {A B} (f : B -> dict -> result dict) (g : A -> list B) l d : over f (flat_map g l) d = over (fun x => over f (g x)) l d.
Proof. revert d. induction l as [|x l IH]; intro d; cbn; [reflexivity|]. rewrite over_app. destruct (over f (g x) d); cbn; [apply IH|reflexivity]. Qed.
Lemma over_ext {A} (f g : A -> dict -> result dict) l d : (forall x d, f x d = g x d) -> over f l d = over g l d.
Proof. intro H. revert d. induction l as [|x l IH]; intro d; cbn; [reflexivity|]. rewrite H. destruct (g x d); cbn; [apply IH|reflexivity]. Qed.
Lemma inequality_over log sets d : correct_inequality sets log d = over (correct_one log) sets d.
Proof. revert d. induction sets as [|k sets IH]; intro d; cbn; [reflexivity|]. destruct (correct_one log k d); cbn; [apply IH|reflexivity]. Qed.
Lemma apply_actions present c d : apply present c d = over perform (actions (match c with Law _ dep _ => law_stars dep d | _ => [] end) present c) d.
Proof.
  destruct c as [l dep indep|fields log|fields|fields c]; cbn [apply actions].
  - rewrite over_map. reflexivity.
  - rewrite over_flat. apply over_ext. intros star q. rewrite inequality_over. unfold formatted. rewrite !over_map. reflexivity.
  - rewrite over_flat. apply over_ext. intros star q. unfold formatted. rewrite !over_map. reflexivity.
  - rewrite over_map. reflexivity.
Qed.
Definition lstars_ok (d : dict) (c : constraint) (ls : list string) : Prop :=
  match c with Law _ dep _ => ls = ["1"] \/ (ls = ["1"; "2"] /\ braces dep = true) | _ => ls = [] end /\ match c with Law _ dep _ => braces dep = true -> has (format dep "2") d = true -> ls = ["1"; "2"] | _ => True end.
Definition present_ok (l : list string) := l = ["1"] \/ l = ["1"; "2"].
Lemma actions_sub (d : dict) present c c0 ls : present_ok present -> lstars_ok d c ls ->
  match c, c0 with Law l d i, Law l' d' i' => l = l' /\ d = d' /\ i = i' | Inequality f b, Inequality f' b' => sub f f' /\ b = b' | Thickness f, Thickness f' => sub f f' | Total f x, Total f' x' => f = f' /\ x = x' | _, _ => False end ->
  sub (actions ls present c) (all_actions c0).
Proof.
  intros PO LO M. assert (SP : forall {B} (f g : string -> list B), (forall s, sub (f s) (g s)) -> sub (flat_map f present) (flat_map g ["1"; "2"])).
  { intros B f g H. destruct PO as [-> | ->]; cbn; [apply sub_app; [apply H|apply sub_nil]|apply sub_app; [apply H|apply sub_app; [apply H|apply sub_nil]]]. }
  unfold all_actions. destruct c as [l dep i|f b|f|f x], c0 as [l' dep' i'|f' b'|f'|f' x']; try contradiction; cbn [actions].
  - destruct M as (<- & <- & <-). destruct LO as [[-> |(-> & ->)] _]; [destruct (braces dep)|]; cbn; repeat (apply sub_take); apply sub_nil.
  - destruct M as [M <-]. apply SP. intro s. apply sub_map. exact M.
  - apply SP. intro s. apply sub_map. exact M.
  - destruct M as (<- & <-). destruct PO as [-> | ->]; cbn; repeat (apply sub_take); apply sub_nil.
Qed.
Lemma law_stars_ok d0 d c : (forall k, has k d0 = true -> has k d = true) -> lstars_ok d0 c (match c with Law _ dep _ => law_stars dep d | _ => [] end).
Proof.
  intro H. destruct c as [l dep i|f b|f|f x]; split; try exact I; try reflexivity; unfold law_stars.
  - destruct (braces dep); cbn; [destruct (has (format dep "2") d); auto|auto].
  - intros -> K. rewrite (H _ K). reflexivity.
Qed.
Lemma stars_present_ok d : present_ok (stars_present d).
Proof. unfold stars_present, present_ok. destruct (has "S1_log_R" d && has "S2_log_R" d); auto. Qed.
Lemma examine_shape keys c c' : fst (examine keys c) = Some c' ->
  match c', c with Law l d i, Law l' d' i' => l = l' /\ d = d' /\ i = i' | Inequality f b, Inequality f' b' => sub f f' /\ b = b' | Thickness f, Thickness f' => sub f f' | Total f x, Total f' x' => f = f' /\ x = x' | _, _ => False end.
Proof.
  destruct c as [l dep i|f b|f|f x]; cbn; intro E.
  - destruct (available keys i); [|discriminate]. cbn in E. assert (c' = Law l dep i) by congruence. subst. auto.
  - pose proof (sub_filter (available keys) f) as SF. destruct (filter (available keys) f) as [|a q] eqn:F; cbn in E; [discriminate|]. assert (c' = Inequality (a :: q) b) by congruence. subst. auto.
  - pose proof (sub_filter (available keys) f) as SF. destruct (filter (available keys) f) as [|a q] eqn:F; cbn in E; [discriminate|]. assert (c' = Thickness (a :: q)) by congruence. subst. auto.
  - destruct (available keys f); [|discriminate]. cbn in E. assert (c' = Total f x) by congruence. subst. auto.
Qed.
Lemma sub_trans_app_l {A} (a b c : list A) : sub a c -> sub a (b ++ c).
Proof. intro H. induction b; [exact H|apply sub_skip; assumption]. Qed.
Lemma run keys present d0 : present_ok present -> forall cs d d', orderly (flat_map all_actions cs) = true -> (forall k, has k d0 = true -> has k d = true) ->
  over (apply present) (fst (find_constraints_to_apply cs keys)) d = Ok d' ->
  exists acts, sub acts (flat_map all_actions cs) /\ over perform acts d = Ok d' /\
    forall c, In c (fst (find_constraints_to_apply cs keys)) -> exists ls, lstars_ok d0 c ls /\ incl (actions ls present c) acts.
Proof.
  intro PO. induction cs as [|c cs IH]; intros d d' O M E; [exists []; split; [apply sub_nil|]; split; [exact E|intros c []]|]. cbn [find_constraints_to_apply fst flat_map] in E |- *.
  assert (O' : orderly (flat_map all_actions cs) = true) by (apply (orderly_sub _ _ (sub_trans_app_l _ (all_actions c) _ (sub_refl _)) O)).
  destruct (fst (examine keys c)) as [c'|] eqn:EX; cbn [app] in E |- *.
  - cbn [over] in E. rewrite apply_actions in E. set (ls := match c' with Law _ dep _ => law_stars dep d | _ => [] end) in E. pose proof (law_stars_ok d0 d c' M) as LS. fold ls in LS. clearbody ls. destruct (over perform (actions ls present c') d) as [d1|] eqn:P1; [|discriminate E]. cbn [rbind] in E.
    pose proof (actions_sub d0 present c' c ls PO LS (examine_shape keys c c' EX)) as SA. assert (OA : orderly (actions ls present c') = true) by (apply (orderly_sub _ (all_actions c)); [exact SA|]; apply (orderly_sub _ (all_actions c ++ flat_map all_actions cs)); [|exact O]; rewrite <- (app_nil_r (all_actions c)) at 1; apply sub_app; [apply sub_refl|apply sub_nil]).
    assert (AD : added d d1 (fun _ => True)) by (apply (over_order (actions ls present c')); [exact OA| |exact P1]; intros [] _; exact I || (intros _; exact I)).
    destruct (IH d1 d' O') as (acts & S1 & R1 & C1); [intros k K; apply (added_has d d1 _ k AD); apply M; exact K|exact E|].
    exists (actions ls present c' ++ acts). split; [apply sub_app; assumption|]. split; [rewrite over_app, P1; exact R1|]. intros q [<-|I]; [exists ls; split; [exact LS|apply incl_appl, incl_refl]|]. destruct (C1 q I) as (ls2 & L2 & I2). exists ls2. split; [exact L2|apply incl_appr; exact I2].
  - destruct (IH d d' O' M E) as (acts & S1 & R1 & C1). exists acts. split; [apply sub_trans_app_l; exact S1|]. split; [exact R1|exact C1].
Qed.

Theorem C132_together : forall out_keys d d', let cs := fst (find_constraints_to_apply CONSTRAINTS out_keys) in
  sanitize_interpolated_quantities d cs = Ok d' -> forall c, In c cs -> obeyed d d' c.
Proof.
  intros keys d d' cs E c I. unfold sanitize_interpolated_quantities in E. destruct (run keys (stars_present d) d (stars_present_ok d) CONSTRAINTS d d' all_orderly (fun k K => K) E) as (acts & SA & R & C).
  pose proof (over_done acts d d' (orderly_sub _ _ SA all_orderly) R) as D. destruct (C c I) as (ls & [LS1 LS2] & IN).
  assert (ST : forall star, star = "1" \/ (star = "2" /\ has "S1_log_R" d = true /\ has "S2_log_R" d = true) -> In star (stars_present d)). { intros star [-> | (-> & H1 & H2)]; unfold stars_present; [destruct (has "S1_log_R" d && has "S2_log_R" d); left; reflexivity|]. rewrite H1, H2. right. left. reflexivity. }
  destruct c as [l dep indep|fields log|fields|fields x]; cbn [obeyed].
  - intros star H. assert (IS : In star ls) by (destruct H as [-> | (-> & H1 & H2)]; [destruct LS1 as [-> |(-> & _)]; left; reflexivity|rewrite (LS2 H1 H2); right; left; reflexivity]). apply (D (ALaw l (format dep star) (map (fun k => format k star) indep))). apply IN. cbn. apply in_map_iff. exists star. split; [reflexivity|exact IS].
  - intros star ks H K. apply (D (AChain (map (fun k => format k star) ks) log)). apply IN. cbn. apply in_flat_map. exists star. split; [apply ST; exact H|]. apply in_map_iff. exists ks. split; [reflexivity|exact K].
  - intros star ks H K. apply (D (AThick (map (fun k => format k star) ks))). apply IN. cbn. apply in_flat_map. exists star. split; [apply ST; exact H|]. apply in_map_iff. exists ks. split; [reflexivity|exact K].
  - destruct x as [x|]; [|exact Logic.I]. intros star H. apply (D (ASum (map (fun k => format k star) fields) (Number x))). apply IN. cbn. apply in_map_iff. exists star. split; [reflexivity|apply ST; exact H].
Qed.
Print Assumptions C132_together.
(** The values keep their places; only the dependent quantities of the laws can be added, behind. *)
Theorem C132_order : forall out_keys d d', sanitize_interpolated_quantities d (fst (find_constraints_to_apply CONSTRAINTS out_keys)) = Ok d' ->
  exists extra, map fst d' = map fst d ++ extra /\ forall k, In k extra -> In k ["S1_log_Teff"; "S2_log_Teff"; "binary_separation"; "S1_log_Lnuc"; "S2_log_Lnuc"; "xfer_fraction"].
Proof.
  intros keys d d' E. unfold sanitize_interpolated_quantities in E. destruct (run keys (stars_present d) d (stars_present_ok d) CONSTRAINTS d d' all_orderly (fun k K => K) E) as (acts & SA & R & _).
  apply (over_order acts); [apply (orderly_sub _ _ SA all_orderly)| |exact R]. intros a I. apply (sub_in _ _ _ SA) in I.
  assert (F : forallb (fun a => match a with ALaw SystemMdot _ _ => true | ALaw _ dep _ => inb dep ["S1_log_Teff"; "S2_log_Teff"; "binary_separation"; "S1_log_Lnuc"; "S2_log_Lnuc"; "xfer_fraction"] | _ => true end) (flat_map all_actions CONSTRAINTS) = true) by (vm_compute; reflexivity).
  rewrite forallb_forall in F. specialize (F a I). destruct a as [l dep i| | |]; try exact Logic.I. intro NS. destruct l; try congruence; apply inb_iff; exact F.
Qed.
Print Assumptions C132_order.
Example C132_case : let keys := ["S1_log_L"; "S1_log_R"; "star_1_mass"; "S1_he_core_mass"; "S1_co_core_mass"] in let cs := fst (find_constraints_to_apply CONSTRAINTS keys) in
  cs = [Law Boltzmann "S{}_log_Teff" ["S{}_log_L"; "S{}_log_R"]; Inequality [["star_{}_mass"; "S{}_he_core_mass"; "S{}_co_core_mass"]] false] /\
  exists T, sanitize_interpolated_quantities [("S1_log_L", Some 1); ("S1_log_R", Some 0); ("star_1_mass", Some 10); ("S1_he_core_mass", Some 4); ("S1_co_core_mass", Some 5)] cs =
    Ok [("S1_log_L", Some 1); ("S1_log_R", Some 0); ("star_1_mass", Some 10); ("S1_he_core_mass", Some 4); ("S1_co_core_mass", Some 4); ("S1_log_Teff", Some T)].
Proof.
  cbv zeta. split; [reflexivity|]. exists (log10 (stefan_boltzmann_law (Rpower 10 1) (Rpower 10 0))). unfold sanitize_interpolated_quantities. cbn -[log10 stefan_boltzmann_law Rpower]. destruct (Rlt_dec 10 4); [lra|]. cbn -[log10 stefan_boltzmann_law Rpower]. destruct (Rlt_dec 4 5); [reflexivity|lra].
Qed.
(** An interpolator without the dependent quantity among its outputs gives more values than it has outputs. *)
Theorem C132_length_refuted : ~ (forall out_keys track d', length track = length out_keys ->
  sanitize_interpolated_quantities (combine out_keys track) (fst (find_constraints_to_apply CONSTRAINTS out_keys)) = Ok d' -> length (map snd d') = length out_keys).
Proof.
  intro H. specialize (H ["S1_log_L"; "S1_log_R"] [Some 0; Some 0] _ eq_refl eq_refl). discriminate H.
Qed.
Print Assumptions C132_length_refuted.

(** ** C133: narrowing of the constraints of the module *)
(** All names of the fields of one group, for the primary, are outputs *)
Definition interpolated (out_keys fields : list string) : Prop := forall f, In f fields -> In (format f "1") out_keys.
Lemma available_iff keys fields : available keys fields = true <-> interpolated keys fields.
Proof. unfold available, interpolated. rewrite forallb_forall. split; intros H f I; [apply inb_iff; apply (H f I)|apply inb_iff; apply (H f I)]. Qed.
(** What is applied on first use: every group of quantities that are all interpolated, and no other. *)
Theorem C133_first : forall m out_keys c', In c' (fst (find_constraints_to_apply m out_keys)) <-> exists c, In c m /\
  match c, c' with
  | Law l dep indep, Law l' dep' indep' => c = c' /\ interpolated out_keys indep
  | Total fields x, Total _ _ => c = c' /\ interpolated out_keys fields
  | Inequality fields log, Inequality fields' log' => log' = log /\ fields' <> [] /\ fields' = filter (available out_keys) fields
  | Thickness fields, Thickness fields' => fields' <> [] /\ fields' = filter (available out_keys) fields
  | _, _ => False
  end.
Proof.
  intros m keys c'. unfold find_constraints_to_apply. cbn [fst]. rewrite in_flat_map. split; intros (c & I & H); exists c; (split; [exact I|]).
  - destruct c as [l dep i|f b|f|f x]; cbn in H.
    + destruct (available keys i) eqn:A; [|contradiction]. cbn in H. destruct H as [<-|[]]. split; [reflexivity|apply available_iff; exact A].
    + destruct (filter (available keys) f) as [|a q] eqn:F; cbn in H; [contradiction|]. destruct H as [<-|[]]. split; [reflexivity|]. split; [discriminate|reflexivity].
    + destruct (filter (available keys) f) as [|a q] eqn:F; cbn in H; [contradiction|]. destruct H as [<-|[]]. split; [discriminate|reflexivity].
    + destruct (available keys f) eqn:A; [|contradiction]. cbn in H. destruct H as [<-|[]]. split; [reflexivity|apply available_iff; exact A].
  - destruct c as [l dep i|f b|f|f x], c' as [l' dep' i'|f' b'|f'|f' x']; try contradiction; cbn.
    + destruct H as [Q A]. apply available_iff in A. rewrite A. left. exact Q.
    + destruct H as (-> & N & Q). rewrite <- Q. destruct f'; [congruence|]. left. reflexivity.
    + destruct H as (N & Q). rewrite <- Q. destruct f'; [congruence|]. left. reflexivity.
    + destruct H as [Q A]. apply available_iff in A. rewrite A. left. exact Q.
Qed.
Print Assumptions C133_first.
(** Members of a filtered list, so that the previous statement does not lean on [available] alone *)
Lemma filter_available keys fields ks : In ks (filter (available keys) fields) <-> In ks fields /\ interpolated keys ks.
Proof. rewrite filter_In, available_iff. reflexivity. Qed.

Lemma filter_weaker {A} (f g : A -> bool) l : (forall x, f x = true -> g x = true) -> filter f (filter g l) = filter f l.
Proof. intro H. induction l as [|x l IH]; cbn; [reflexivity|]. destruct (g x) eqn:G; cbn; [rewrite IH; reflexivity|]. destruct (f x) eqn:F; [rewrite (H x F) in G; discriminate|exact IH]. Qed.
Lemma examine_again k1 k2 c : (forall ks, interpolated k2 ks -> interpolated k1 ks) -> fst (examine k2 (snd (examine k1 c))) = fst (examine k2 c).
Proof.
  intro H. assert (W : forall ks, available k2 ks = true -> available k1 ks = true) by (intros ks A; apply available_iff, H, available_iff; exact A). destruct c as [l dep i|f b|f|f x]; cbn; try reflexivity.
  - pose proof (filter_weaker (available k2) (available k1) f W) as FW. destruct (filter (available k1) f) as [|a q]; cbn [snd examine]; [reflexivity|]. rewrite FW. destruct (filter (available k2) f); reflexivity.
  - pose proof (filter_weaker (available k2) (available k1) f W) as FW. destruct (filter (available k1) f) as [|a q]; cbn [snd examine]; [reflexivity|]. rewrite FW. destruct (filter (available k2) f); reflexivity.
Qed.
(** A later interpolator is served as the first would be if whatever it interpolates the earlier one did too. *)
Theorem C133_later : forall m k1 k2, (forall f, In f k2 -> In f k1) ->
  fst (find_constraints_to_apply (snd (find_constraints_to_apply m k1)) k2) = fst (find_constraints_to_apply m k2).
Proof.
  intros m k1 k2 H. unfold find_constraints_to_apply. cbn [fst snd]. induction m as [|c m IH]; [reflexivity|]. cbn [map flat_map]. rewrite examine_again, IH; [reflexivity|]. intros ks I f K. apply H, I, K.
Qed.
Print Assumptions C133_later.
Definition few : list string := ["star_1_mass"; "S1_m_core_CE_1cent"].
Definition many : list string := ["star_1_mass"; "S1_m_core_CE_1cent"; "S1_m_core_CE_10cent"].
Definition track : dict := [("star_1_mass", Some 10); ("S1_m_core_CE_1cent", Some 5); ("S1_m_core_CE_10cent", Some 12)].
(** In the same process, an interpolator with fewer outputs, whether before or after, switches off a bound of another one. *)
Theorem C133_narrowed_refuted :
  sanitize_interpolated_quantities track (fst (find_constraints_to_apply CONSTRAINTS many)) = Ok [("star_1_mass", Some 10); ("S1_m_core_CE_1cent", Some 5); ("S1_m_core_CE_10cent", Some 10)] /\
  sanitize_interpolated_quantities track (fst (find_constraints_to_apply (snd (find_constraints_to_apply CONSTRAINTS few)) many)) = Ok track /\
  sanitize_interpolated_quantities track (held_after few (fst (find_constraints_to_apply CONSTRAINTS many))) = Ok track /\
  ~ (forall k1 k2, fst (find_constraints_to_apply (snd (find_constraints_to_apply CONSTRAINTS k1)) k2) = fst (find_constraints_to_apply CONSTRAINTS k2)) /\
  ~ (forall k1 k2, held_after k2 (fst (find_constraints_to_apply CONSTRAINTS k1)) = fst (find_constraints_to_apply CONSTRAINTS k1)).
Proof.
  split; [|split; [|split; [|split]]].
  - unfold sanitize_interpolated_quantities. cbn. destruct (Rlt_dec 10 5); [lra|]. cbn. destruct (Rlt_dec 10 12); [reflexivity|lra].
  - unfold sanitize_interpolated_quantities. cbn. destruct (Rlt_dec 10 5); [lra|reflexivity].
  - unfold sanitize_interpolated_quantities. cbn. destruct (Rlt_dec 10 5); [lra|reflexivity].
  - intro H. specialize (H few many). vm_compute in H. discriminate H.
  - intro H. specialize (H many few). vm_compute in H. discriminate H.
Qed.
Print Assumptions C133_narrowed_refuted.
