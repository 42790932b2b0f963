(** Following the nearest track of a grid, and stopping (C120 to C122). *)
From Coq Require Import String List Bool QArith Arith Lia Lqa.
From Verif Require Import PyBase GridStepModel.
Import ListNotations.
Open Scope string_scope.
Open Scope nat_scope.
Open Scope list_scope.

(** ** Lemmas *)
Lemma each_ok {A B} (f : A -> result B) (g : A -> B) l : (forall x, In x l -> f x = Ok (g x)) -> each f l = Ok (map g l).
Proof. induction l as [|x l IH]; intro H; [reflexivity|]. cbn. rewrite (H x (or_introl eq_refl)). cbn. rewrite IH; [reflexivity|]. intros y I. apply H. right. exact I. Qed.
Lemma each_inv {A B} (f : A -> result B) l ys : each f l = Ok ys -> Forall2 (fun x y => f x = Ok y) l ys.
Proof.
  revert ys. induction l as [|x l IH]; intros ys H; cbn in H; [assert (ys = []) by congruence; subst; constructor|].
  destruct (f x) as [y|] eqn:E; [|discriminate H]. cbn in H. destruct (each f l) as [zs|]; [|discriminate H]. cbn in H. assert (ys = y :: zs) by congruence. subst. constructor; [exact E|apply IH; reflexivity].
Qed.
Lemma removelast_len {A} (l : list A) : length (removelast l) = length l - 1.
Proof. induction l as [|x [|y l] IH]; [reflexivity|reflexivity|]. cbn [removelast length] in *. rewrite IH. lia. Qed.
Lemma last_of_app {A} (l : list A) x : last_of (l ++ [x]) = Ok x.
Proof. unfold last_of. rewrite rev_app_distr. reflexivity. Qed.
Lemma snoc_cases {A} (l : list A) : l = [] \/ exists m x, l = m ++ [x].
Proof. destruct l as [|x l] using rev_ind; [left; reflexivity|right; eauto]. Qed.
Lemma removelast_snoc {A} (l : list A) x : removelast (l ++ [x]) = l.
Proof. apply removelast_last. Qed.
Lemma last_where_spec {A} (f : A -> bool) l :
  match last_where f l with
  | Some i => exists x, nth_error l i = Some x /\ f x = true /\ forall j y, i < j -> nth_error l j = Some y -> f y = false
  | None => forall y, In y l -> f y = false
  end.
Proof.
  induction l as [|x l IH]; [intros y []|]. cbn. destruct (last_where f l) as [i|].
  - destruct IH as (z & A1 & A2 & A3). exists z. split; [exact A1|]. split; [exact A2|]. intros [|j] y L N; [lia|]. apply (A3 j); [lia|exact N].
  - destruct (f x) eqn:E.
    + exists x. split; [reflexivity|]. split; [exact E|]. intros [|j] y L N; [lia|]. apply IH. apply nth_error_In with j. exact N.
    + intros y [->|I]; [exact E|apply IH; exact I].
Qed.
Lemma at_index_some {A} (l : list A) i x : nth_error l i = Some x -> at_index l i = Ok x.
Proof. intro H. unfold at_index. rewrite H. reflexivity. Qed.
Lemma Qle_true x y : Qle_bool x y = true <-> (x <= y)%Q.
Proof. apply Qle_bool_iff. Qed.
Lemma Qle_false x y : Qle_bool x y = false <-> (y < x)%Q.
Proof. rewrite <- not_true_iff_false, Qle_true. split; intro; lra. Qed.

(** ** C120: the histories *)
(** MESA's histories have as many rows as the ages, at least two. *)
Definition complete (r : run) (p : prop) : Prop :=
  match src p with Column c | StarColumn c | Late c => length c = length (ages r) | _ => True end.
Definition regular (r : run) (b : binary) : Prop :=
  2 <= length (ages r) /\ star_rows r = length (ages r) /\ 1 <= length (times b) /\
  Forall (fun p => complete r p /\ length (hist p) = length (times b)) (props b).

(** What the property should be after the step. *)
Definition first_rows (p : prop) (n : nat) : list val :=
  match src p with
  | Column c | StarColumn c | Late c => firstn n c
  | Value v => repeat v n
  | LastRow => repeat (last (hist p) NaNV) n
  | Same => repeat (cur p) n
  | Nothing _ => repeat NoneV n
  | State row _ => []
  end.
Definition final_value (p : prop) : val :=
  match src p with
  | Column c | StarColumn c | Late c => last c NaNV
  | Value v => v
  | LastRow => last (hist p) NaNV
  | Same => cur p
  | Nothing v => v
  | State _ v => v
  end.
Definition is_state (p : prop) : bool := match src p with State _ _ => true | _ => false end.

Lemma column_rows {A} (c : list A) d : 2 <= length c -> exists f, last_of c = Ok (last c d) /\ at_index (removelast c) 0 = Ok f /\ firstn 1 c = [f] /\ removelast c = firstn (length c - 1) c.
Proof.
  intro L. destruct (snoc_cases c) as [->|(m & x & ->)]; [cbn in L; lia|]. rewrite last_of_app, last_last, removelast_snoc. rewrite app_length in *. cbn in L.
  destruct m as [|f m]; [cbn in L; lia|]. exists f. split; [reflexivity|]. split; [reflexivity|]. split; [reflexivity|].
  rewrite firstn_app. cbn [length]. replace (S (length m) + 1 - 1) with (length (f :: m)) by (cbn; lia). rewrite firstn_all, Nat.sub_diag. cbn. rewrite app_nil_r. reflexivity.
Qed.
Lemma repeat_head {A} (x : A) n : 1 <= n -> at_index (repeat x n) 0 = Ok x.
Proof. intro L. destruct n; [lia|reflexivity]. Qed.

Lemma update_prop_regular s r b p : regular r b -> In p (props b) ->
  exists l, update_prop s r (length (times b)) p = Ok (Prop_ (src p) (treat p) (hist p ++ l) (final_value p)) /\
    length l = Nat.b2n (save s) + (if track s then length (ages r) - 1 else 0) /\
    (is_state p = false -> l = (if save s then first_rows p 1 else []) ++ (if track s then first_rows p (length (ages r) - 1) else [])) /\
    (forall row v, src p = State row v -> flush s = false \/ track s = false -> forall k, k < length l -> nth_error l k =
       Some (row (length (times b) + k))).
Proof.
  intros (L2 & SR & L1 & F) I. rewrite Forall_forall in F. destruct (F p I) as [C HL].
  assert (MM : mismatch r = false) by (unfold mismatch, binary_rows; rewrite SR, Nat.eqb_refl; reflexivity).
  assert (SH : shared_rows r = length (ages r) - 1) by (unfold shared_rows, binary_rows; rewrite SR; apply Nat.min_id).
  assert (PAD : forall h, padding s r (length (times b)) p h = []) by (intro h; unfold padding; rewrite MM, andb_false_r; reflexivity).
  assert (N1 : 1 <= length (ages r) - 1) by lia.
  unfold update_prop, rows, complete, first_rows, final_value, is_state in *. rewrite SH.
  destruct (src p) as [c|c|v| | |v|row v|c] eqn:E.
  1,2,8: destruct (column_rows c NaNV) as (f & A1 & A2 & A3 & A4); [lia|]; rewrite A1, A2; cbn [rbind]; rewrite PAD, app_nil_r, A4, C;
    eexists; (split; [reflexivity|]); (split; [rewrite app_length; destruct (save s), (track s); cbn [length Nat.b2n]; rewrite ?firstn_length; lia|]);
    (split; [intros _; rewrite A3; reflexivity|intros; discriminate]).
  - cbn [rbind]. rewrite PAD, app_nil_r. eexists. split; [reflexivity|]. split; [rewrite app_length; destruct (save s), (track s); cbn [length Nat.b2n]; rewrite ?repeat_length; lia|].
    split; [intros _; reflexivity|intros; discriminate].
  - assert (LR : last_of (hist p) = Ok (last (hist p) NaNV)).
    { destruct (snoc_cases (hist p)) as [H0|(m & x & ->)]; [rewrite H0 in HL; cbn in HL; lia|]. rewrite last_of_app, last_last. reflexivity. }
    rewrite LR. cbn [rbind]. rewrite PAD, app_nil_r. eexists. split; [reflexivity|]. split; [rewrite app_length; destruct (save s), (track s); cbn [length Nat.b2n]; rewrite ?repeat_length; lia|].
    split; [intros _; reflexivity|intros; discriminate].
  - cbn [rbind]. rewrite PAD, app_nil_r. eexists. split; [reflexivity|]. split; [rewrite app_length; destruct (save s), (track s); cbn [length Nat.b2n]; rewrite ?repeat_length; lia|].
    split; [intros _; reflexivity|intros; discriminate].
  - rewrite repeat_head by exact N1. cbn [rbind]. rewrite PAD, app_nil_r. eexists. split; [reflexivity|]. split; [rewrite app_length; destruct (save s), (track s); cbn [length Nat.b2n]; rewrite ?repeat_length; lia|].
    split; [intros _; reflexivity|intros; discriminate].
  - cbn [rbind]. rewrite PAD, app_nil_r. eexists. split; [reflexivity|]. split.
    { rewrite app_length. destruct (save s), (track s), (flush s); cbn [length Nat.b2n]; rewrite ?repeat_length, ?map_length, ?seq_length; lia. }
    split; [discriminate|]. intros row' v' EQ FL k K. assert (row' = row) by congruence. subst row'.
    destruct (track s) eqn:T; [destruct FL as [FL|]; [|discriminate]; rewrite FL in *|].
    + destruct (save s); cbn [app Nat.b2n] in *.
      * destruct k as [|k]; [cbn; rewrite Nat.add_0_r; reflexivity|]. cbn [nth_error length] in *. rewrite nth_error_map.
        rewrite map_length, seq_length in K. rewrite (nth_error_nth' _ 0) by (rewrite seq_length; lia). rewrite seq_nth by lia. cbn. do 2 f_equal. lia.
      * rewrite nth_error_map. rewrite map_length, seq_length in K. rewrite (nth_error_nth' _ 0) by (rewrite seq_length; lia). rewrite seq_nth by lia. cbn. do 2 f_equal. lia.
    + rewrite app_nil_r in *. destruct (save s); cbn in *; [|lia]. assert (k = 0) by lia. subst k. rewrite Nat.add_0_r. reflexivity.
Qed.

Theorem C120_histories : forall s r b, regular r b -> track s || save s = true ->
  exists b', update_NN s r b = Ok b' /\
    now b' = (now b + last (ages r) 0)%Q /\
    times b' = times b ++ map (Qplus (now b)) ((if save s then firstn 1 (ages r) else []) ++ (if track s then firstn (length (ages r) - 1) (ages r) else [])) /\
    Forall2 (fun p q => cur q = final_value p /\ length (hist q) = length (times b') /\ firstn (length (times b)) (hist q) = hist p /\
      (is_state p = false -> hist q = hist p ++ (if save s then first_rows p 1 else []) ++ (if track s then first_rows p (length (ages r) - 1) else [])) /\
      (forall row v, src p = State row v -> flush s = false \/ track s = false -> forall k, length (times b) <= k < length (hist q) -> nth_error (hist q) k = Some (row k)))
      (props b) (props b').
Proof.
  intros s r b RG TS. assert (RG' := RG). destruct RG' as (L2 & SR & L1 & F).
  unfold update_NN. rewrite TS. cbn [negb]. unfold update_time.
  destruct (column_rows (ages r) 0%Q L2) as (f & A1 & A2 & A3 & A4). rewrite A1. cbn [rbind].
  assert (A2' : at_index (ages r) 0 = Ok f). { destruct (ages r) as [|x l]; [cbn in L2; lia|]. cbn in A3. assert (x = f) by congruence. subst. reflexivity. }
  rewrite A2'. cbn [rbind].
  assert (MM : mismatch r = false) by (unfold mismatch, binary_rows; rewrite SR, Nat.eqb_refl; reflexivity).
  rewrite MM, andb_false_r. cbn [andb rbind].
  assert (EX : exists qs, each (update_prop s r (length (times b))) (props b) = Ok qs /\ Forall2 (fun p q => In p (props b) /\ update_prop s r (length (times b)) p = Ok q) (props b) qs).
  { assert (G : forall l, (forall p, In p l -> In p (props b)) -> exists qs, each (update_prop s r (length (times b))) l = Ok qs /\ Forall2 (fun p q => In p (props b) /\ update_prop s r (length (times b)) p = Ok q) l qs).
    { induction l as [|p l IH]; intro J; [exists []; split; [reflexivity|constructor]|]. destruct (update_prop_regular s r b p RG (J p (or_introl eq_refl))) as (x & E & _).
      destruct IH as (qs & E2 & F2); [intros q K; apply J; right; exact K|]. cbn. rewrite E. cbn. rewrite E2. cbn. eexists. split; [reflexivity|]. constructor; [split; [apply J; left; reflexivity|exact E]|exact F2]. }
    apply G. auto. }
  destruct EX as (qs & E & F2). rewrite E. cbn [rbind]. eexists. split; [reflexivity|]. cbn [now times props]. split; [reflexivity|].
  assert (TL : times b ++ (if save s then [(now b + f)%Q] else []) ++ (if track s then map (fun x => (now b + x)%Q) (removelast (ages r)) else []) =
    times b ++ map (Qplus (now b)) ((if save s then firstn 1 (ages r) else []) ++ (if track s then firstn (length (ages r) - 1) (ages r) else []))).
  { rewrite map_app. rewrite A3, A4. destruct (save s), (track s); reflexivity. }
  split; [exact TL|].
  assert (TLen : length (times b ++ (if save s then [(now b + f)%Q] else []) ++ (if track s then map (fun x => (now b + x)%Q) (removelast (ages r)) else [])) = length (times b) + (Nat.b2n (save s) + if track s then length (ages r) - 1 else 0)).
  { rewrite !app_length. destruct (save s), (track s); cbn [length Nat.b2n]; rewrite ?map_length, ?removelast_len; lia. }
  rewrite TLen. rewrite Forall_forall in F. clear E TL TLen.
  induction F2 as [|p q l l' [I U] F2 IH]; [constructor|]. constructor; [|exact IH].
  destruct (update_prop_regular s r b p RG I) as (x & E & L & NS & ST). destruct (F p I) as [_ HL]. assert (Q : q = Prop_ (src p) (treat p) (hist p ++ x) (final_value p)) by congruence. subst q. cbn [cur hist].
  split; [reflexivity|]. split; [rewrite app_length, HL, L; lia|].
  split; [rewrite <- HL, firstn_app, firstn_all, Nat.sub_diag; cbn; apply app_nil_r|].
  split; [intro H; rewrite (NS H); reflexivity|].
  intros row v EQ FL k [K1 K2]. rewrite nth_error_app2 by lia. rewrite app_length in K2. rewrite (ST row v EQ FL) by lia. do 2 f_equal. lia.
Qed.
Print Assumptions C120_histories.

Definition two_rows : run := Run [0; 5; 10]%Q 3.
Definition small : binary := Binary [100%Q] 100%Q
  [Prop_ (Column [Num 1; Num 2; Num 3]) Interpolated [Num 9] (Num 9);
   Prop_ (StarColumn [Num 4; Num 5; Num 6]) Interpolated [Num 9] (Num 9);
   Prop_ (State (fun i => Num (inject_Z (Z.of_nat i))) (Text "now")) (Inferred (Text "now")) [Text "old"] (Text "old")].
Example C120_case : regular two_rows small /\
  update_NN (NN true false false) two_rows small =
  Ok (Binary [100; 100; 105]%Q 110%Q
  [Prop_ (Column [Num 1; Num 2; Num 3]) Interpolated [Num 9; Num 1; Num 2] (Num 3);
   Prop_ (StarColumn [Num 4; Num 5; Num 6]) Interpolated [Num 9; Num 4; Num 5] (Num 6);
   Prop_ (State (fun i => Num (inject_Z (Z.of_nat i))) (Text "now")) (Inferred (Text "now")) [Text "old"; Num 1; Num 2] (Text "now")]).
Proof.
  split; [|reflexivity]. unfold regular. cbn. repeat split; try lia. repeat constructor.
Qed.
(** With both the rows and the initial conditions, the first row is there twice. *)
Theorem C120_twice : forall r b, regular r b -> exists b', update_NN (NN true true false) r b = Ok b' /\
  exists t, nth_error (times b') (length (times b)) = Some t /\ nth_error (times b') (S (length (times b))) = Some t.
Proof.
  intros r b RG. destruct (C120_histories (NN true true false) r b RG eq_refl) as (b' & E & _ & T & _). exists b'. split; [exact E|]. cbn [save track] in T.
  destruct RG as (L2 & _). destruct (ages r) as [|x [|y l]]; [cbn in L2; lia|cbn in L2; lia|]. exists (now b + x)%Q. rewrite T.
  rewrite !nth_error_app2 by lia. replace (S (length (times b)) - length (times b)) with 1 by lia. rewrite Nat.sub_diag. cbn. split; reflexivity.
Qed.
Print Assumptions C120_twice.
(** Without both there is no step at all. *)
Theorem C120_neither : forall r b f, update_NN (NN false false f) r b = Raise UnboundLocalError.
Proof. reflexivity. Qed.
Theorem C120_neither_refuted : ~ (forall s r b, regular r b -> exists b', update_NN s r b = Ok b') /\ regular two_rows small /\ update_NN (NN false false true) two_rows small = Raise UnboundLocalError.
Proof.
  assert (RG : regular two_rows small) by (unfold regular; cbn; repeat split; try lia; repeat constructor).
  split; [|split; [exact RG|reflexivity]]. intro H. destruct (H (NN false false true) _ _ RG) as (b' & E). discriminate.
Qed.
Print Assumptions C120_neither_refuted.
(** If MESA's histories differ in length those of the binary do as well, in spite of the padding. *)
Theorem C120_mismatch_refuted :
  ~ (forall r b s b', length (ages r) >= 2 -> star_rows r >= 2 -> track s = true ->
     Forall (fun p => length (hist p) = length (times b) /\ match src p with Column c => length c = length (ages r) | StarColumn c => length c = star_rows r | _ => True end) (props b) ->
     update_NN s r b = Ok b' -> Forall (fun q => length (hist q) = length (times b')) (props b')) /\
  update_NN (NN true false false) (Run [0; 5; 10; 12]%Q 3) (Binary [100%Q] 100%Q [Prop_ (State (fun _ => Text "s") (Text "s")) (Inferred (Text "s")) [Text "s"] (Text "s")]) =
    Ok (Binary [100; 100; 105; 110]%Q 112%Q [Prop_ (State (fun _ => Text "s") (Text "s")) (Inferred (Text "s")) [Text "s"; Text "s"; Text "s"] (Text "s")]) /\
  update_NN (NN true true false) (Run [0; 5; 10; 12]%Q 3) (Binary [100%Q] 100%Q [Prop_ (StarColumn [Num 1; Num 2; Num 3]) Interpolated [Num 0] (Num 0)]) =
    Ok (Binary [100; 100; 100; 105; 110]%Q 112%Q [Prop_ (StarColumn [Num 1; Num 2; Num 3]) Interpolated [Num 0; Num 1; Num 1; Num 2] (Num 3)]).
Proof.
  split; [|split; reflexivity]. intro H.
  specialize (H (Run [0; 5; 10; 12]%Q 3) (Binary [100%Q] 100%Q [Prop_ (State (fun _ => Text "s") (Text "s")) (Inferred (Text "s")) [Text "s"] (Text "s")]) (NN true false false)
    (Binary [100; 100; 105; 110]%Q 112%Q [Prop_ (State (fun _ => Text "s") (Text "s")) (Inferred (Text "s")) [Text "s"; Text "s"; Text "s"] (Text "s")])).
  assert (G : Forall (fun q => length (hist q) = length [100; 100; 105; 110]%Q) [Prop_ (State (fun _ => Text "s") (Text "s")) (Inferred (Text "s")) [Text "s"; Text "s"; Text "s"] (Text "s")]).
  { apply H; cbn; try lia; try reflexivity. constructor; [split; [reflexivity|exact I]|constructor]. }
  apply Forall_inv in G. cbn in G. lia.
Qed.
Print Assumptions C120_mismatch_refuted.

(** ** C121: stopping at a time *)
(** A straight line through two values. *)
Definition on_line (t0 t1 : Q) (v0 v1 : Q) (t v : Q) : Prop := ((v - v0) * (t1 - t0) == (v1 - v0) * (t - t0))%Q.
Definition level (b : binary) : Prop := Forall (fun p => length (hist p) = length (times b)) (props b) /\ 1 <= length (times b).
Definition numbers (p : prop) : Prop := match treat p with Interpolated => forall v, In v (hist p ++ [cur p]) -> exists q, v = Num q | _ => True end.

(** The history that is left: [Some n] keeps the first n rows. *)
Definition cut {A} (f : option nat) (l : list A) : list A := match f with Some n => firstn n l | None => l end.
Lemma flushed_cut {A} f (l : list A) : flushed f l = cut f l.
Proof. reflexivity. Qed.
Theorem C121_interpolated : forall f b t, level b -> Forall numbers (props b) -> (exists s, In s (times b) /\ (s <= t)%Q) -> (t < now b)%Q ->
  exists i tb ta b',
    nth_error (times b ++ [now b]) i = Some tb /\ nth_error (times b ++ [now b]) (S i) = Some ta /\ (tb <= t < ta)%Q /\
    (forall j s, i < j -> nth_error (times b ++ [now b]) j = Some s -> (t < s)%Q) /\
    stop_at_time t true (option_map Some f) b = Ok b' /\ now b' = t /\ times b' = cut f (firstn (S i) (times b)) /\
    Forall2 (fun p q => hist q = cut f (firstn (S i) (hist p)) /\
      match treat p with
      | Interpolated => exists vb va v, nth_error (hist p) i = Some (Num vb) /\ nth_error (hist p ++ [cur p]) (S i) = Some (Num va) /\ cur q = Num v /\ on_line tb ta vb va t v
      | Copied => cur q = last (hist p) NaNV
      | Inferred w => cur q = match f with Some _ => w | None => last (hist p) NaNV end
      end) (props b) (props b').
Proof.
  intros f b t [LV L1] NUM (s0 & IN & LE) LT. unfold stop_at_time, index_of_last. set (ts := times b ++ [now b]).
  assert (W := last_where_spec (fun x => Qle_bool x t) ts). destruct (last_where (fun x => Qle_bool x t) ts) as [i|].
  2: { exfalso. assert (K : Qle_bool s0 t = false) by (apply W; apply in_or_app; left; exact IN). apply Qle_false in K. lra. }
  destruct W as (tb & N1 & B1 & ABOVE). apply Qle_true in B1.
  assert (IL : i < length (times b)).
  { destruct (Nat.lt_ge_cases i (length (times b))) as [H|H]; [exact H|]. exfalso.
    assert (K : i < length ts) by (apply nth_error_Some; congruence). unfold ts in K. rewrite app_length in K. cbn in K. assert (i = length (times b)) by lia. subst i.
    unfold ts in N1. rewrite nth_error_app2, Nat.sub_diag in N1 by lia. cbn in N1. assert (now b = tb) by congruence. subst tb. lra. }
  destruct (nth_error ts (S i)) as [ta|] eqn:N2.
  2: { apply nth_error_None in N2. unfold ts in N2. rewrite app_length in N2. cbn in N2. lia. }
  assert (A1 : (t < ta)%Q) by (apply Qle_false; apply (ABOVE (S i)); [lia|exact N2]).
  exists i, tb, ta. cbn [rbind].
  assert (KF : match option_map Some f with Some n => n | None => None end = f) by (destruct f; reflexivity). rewrite KF.
  assert (KR : forall x : binary, match option_map Some f with Some None => Raise ValueError | _ => Ok x end = Ok x) by (intro; destruct f; reflexivity).
  assert (EX : exists qs, each (stop_prop t i ts f) (props b) = Ok qs /\ Forall2 (fun p q => hist q = cut f (firstn (S i) (hist p)) /\
      match treat p with
      | Interpolated => exists vb va v, nth_error (hist p) i = Some (Num vb) /\ nth_error (hist p ++ [cur p]) (S i) = Some (Num va) /\ cur q = Num v /\ on_line tb ta vb va t v
      | Copied => cur q = last (hist p) NaNV
      | Inferred w => cur q = match f with Some _ => w | None => last (hist p) NaNV end
      end) (props b) qs).
  { clear IN LE LT. revert LV NUM. generalize (props b). intros l. induction l as [|p l IH]; intros LV NUM; [exists []; split; [reflexivity|constructor]|].
    assert (LP := Forall_inv LV). cbn beta in LP. assert (NP := Forall_inv NUM). apply Forall_inv_tail in LV. apply Forall_inv_tail in NUM. destruct (IH LV NUM) as (qs & E & F2).
    assert (U : exists q, stop_prop t i ts f p = Ok q /\ hist q = cut f (firstn (S i) (hist p)) /\
      match treat p with
      | Interpolated => exists vb va v, nth_error (hist p) i = Some (Num vb) /\ nth_error (hist p ++ [cur p]) (S i) = Some (Num va) /\ cur q = Num v /\ on_line tb ta vb va t v
      | Copied => cur q = last (hist p) NaNV
      | Inferred w => cur q = match f with Some _ => w | None => last (hist p) NaNV end
      end).
    { unfold stop_prop, numbers in *. destruct (treat p) eqn:TP.
      - rewrite (at_index_some _ _ _ N1), (at_index_some _ _ _ N2). cbn [rbind].
        destruct (nth_error (hist p ++ [cur p]) i) as [vb|] eqn:M1; [|apply nth_error_None in M1; rewrite app_length in M1; cbn in M1; lia].
        destruct (nth_error (hist p ++ [cur p]) (S i)) as [va|] eqn:M2; [|apply nth_error_None in M2; rewrite app_length in M2; cbn in M2; lia].
        rewrite (at_index_some _ _ _ M1), (at_index_some _ _ _ M2). cbn [rbind].
        destruct (NP vb (nth_error_In _ _ M1)) as [qb ->]. destruct (NP va (nth_error_In _ _ M2)) as [qa ->]. cbn [interpolate_at_t orb rbind].
        eexists. split; [reflexivity|]. cbn [hist cur]. split.
        + rewrite firstn_app. replace (S i - length (hist p)) with 0 by lia. cbn [firstn]. rewrite app_nil_r. apply flushed_cut.
        + exists qb, qa. eexists. rewrite nth_error_app1 in M1 by lia. split; [exact M1|]. split; [reflexivity|]. split; [reflexivity|]. unfold on_line. field. lra.
      - destruct (snoc_cases (hist p)) as [H0|(m & x & HP)]; [rewrite H0 in LP; cbn in LP; lia|]. assert (LO : last_of (hist p) = Ok x) by (rewrite HP; apply last_of_app).
        rewrite LO. cbn [rbind]. eexists. split; [reflexivity|]. cbn [hist cur]. split; [apply flushed_cut|]. rewrite HP, last_last. destruct f; reflexivity.
      - destruct (snoc_cases (hist p)) as [H0|(m & x & HP)]; [rewrite H0 in LP; cbn in LP; lia|]. assert (LO : last_of (hist p) = Ok x) by (rewrite HP; apply last_of_app).
        rewrite LO. cbn [rbind]. eexists. split; [reflexivity|]. cbn [hist cur]. split; [apply flushed_cut|]. rewrite HP, last_last. destruct f; reflexivity. }
    destruct U as (q & U1 & U2). cbn. rewrite U1. cbn. rewrite E. cbn. eexists. split; [reflexivity|]. constructor; assumption. }
  destruct EX as (qs & E & F2). rewrite E. cbn [rbind]. rewrite KR. eexists. split; [exact N1|]. split; [exact N2|]. split; [split; assumption|].
  split; [intros j s J1 J2; apply Qle_false; apply (ABOVE j); assumption|]. split; [reflexivity|]. cbn [now times props]. split; [reflexivity|]. split; [|exact F2].
  unfold ts. rewrite firstn_app. replace (S i - length (times b)) with 0 by lia. cbn [firstn]. rewrite app_nil_r. apply flushed_cut.
Qed.
Print Assumptions C121_interpolated.
Definition course : binary := Binary [0; 10; 20]%Q 30%Q
  [Prop_ Same Interpolated [Num 1; Num 3; Num 7] (Num 9); Prop_ Same (Inferred (Text "x")) [Text "MS"; Text "HG"; Text "giant"] (Text "CC")].
Example C121_case : level course /\ Forall numbers (props course) /\
  stop_at_time 5%Q true None course = Ok (Binary [0%Q] 5%Q [Prop_ Same Interpolated [Num 1] (Num ((5 - 0) * ((3 - 1) / (10 - 0)) + 1)%Q); Prop_ Same (Inferred (Text "x")) [Text "MS"] (Text "giant")]).
Proof.
  split; [split; [repeat constructor|cbn; lia]|]. split; [|reflexivity]. constructor; [|constructor; [exact I|constructor]].
  intros v H. cbn in H. destruct H as [<-|[<-|[<-|[<-|[]]]]]; eauto.
Qed.
(** The state is that of the last row and not that of the moment: on the main sequence at both neighbouring rows, it ends as a giant. *)
Theorem C121_state_refuted :
  ~ (forall b t b', level b -> (t < now b)%Q -> stop_at_time t true None b = Ok b' ->
     Forall2 (fun p q => treat p = Interpolated \/ exists i ti, nth_error (times b) i = Some ti /\ nth_error (hist p) i = Some (cur q) /\ (ti <= t)%Q) (props b) (props b')) /\
  exists b', stop_at_time 5%Q true None course = Ok b' /\ map cur (props b') = [Num ((5 - 0) * ((3 - 1) / (10 - 0)) + 1)%Q; Text "giant"] /\ times b' = [0%Q].
Proof.
  split; [|eexists; split; [reflexivity|]; split; reflexivity]. intro H.
  assert (L : level course) by (split; [repeat constructor|cbn; lia]). assert (LT : (5 < now course)%Q) by (cbn; lra).
  specialize (H course 5%Q _ L LT eq_refl). inversion H as [|p q l l' H1 H2]; subst. inversion H2 as [|p q l l' H3 H4]; subst. destruct H3 as [H3|(i & ti & N1 & N2 & LE)]; [discriminate|].
  destruct i as [|[|[|[|i]]]]; cbn in N1, N2; try discriminate. assert (ti = 20%Q) by congruence. subst ti. lra.
Qed.
Print Assumptions C121_state_refuted.
(** A time that is not before the end cannot be interpolated to, not even the end itself. *)
Theorem C121_end : forall b t, (now b <= t)%Q -> Exists (fun p => treat p = Interpolated) (props b) -> Forall (fun p => 1 <= length (hist p)) (props b) ->
  stop_at_time t true None b = Raise IndexError.
Proof.
  intros b t LE EX NE. unfold stop_at_time, index_of_last. set (ts := times b ++ [now b]).
  assert (W : last_where (fun x => Qle_bool x t) ts = Some (length (times b))).
  { unfold ts. clear EX NE. induction (times b) as [|x l IH]; cbn; [|rewrite IH; reflexivity]. assert (Q : Qle_bool (now b) t = true) by (apply Qle_true; exact LE). rewrite Q. reflexivity. }
  rewrite W. cbn [rbind].
  assert (N : nth_error ts (S (length (times b))) = None) by (apply nth_error_None; unfold ts; rewrite app_length; cbn; lia).
  assert (N0 : at_index ts (length (times b)) = Ok (now b)) by (unfold at_index, ts; rewrite nth_error_app2, Nat.sub_diag by lia; reflexivity).
  assert (G : each (stop_prop t (length (times b)) ts None) (props b) = Raise IndexError).
  { induction EX as [p l E|p l EX IH].
    - cbn. unfold stop_prop. rewrite E. rewrite N0. cbn [rbind]. unfold at_index at 1. rewrite N. reflexivity.
    - cbn. assert (NE' := Forall_inv NE). apply Forall_inv_tail in NE. cbn beta in NE'. unfold stop_prop at 1. destruct (treat p).
      + rewrite N0. cbn [rbind]. unfold at_index at 1. rewrite N. reflexivity.
      + destruct (snoc_cases (hist p)) as [H0|(m & x & HP)]; [rewrite H0 in NE'; cbn in NE'; lia|]. rewrite HP, last_of_app. cbn [rbind]. rewrite (IH NE). reflexivity.
      + destruct (snoc_cases (hist p)) as [H0|(m & x & HP)]; [rewrite H0 in NE'; cbn in NE'; lia|]. rewrite HP, last_of_app. cbn [rbind]. rewrite (IH NE). reflexivity. }
  rewrite G. reflexivity.
Qed.
Print Assumptions C121_end.
Example C121_end_case : stop_at_time 30%Q true None course = Raise IndexError.
Proof. apply C121_end; cbn; [lra|repeat constructor|repeat constructor]. Qed.

(** Without interpolation the binary is set back to the last row before the time. *)
Theorem C121_reset : forall b t, level b -> (exists s, In s (times b) /\ (s <= t)%Q) -> (t < now b)%Q ->
  exists i tb b',
    nth_error (times b) i = Some tb /\ (tb <= t)%Q /\ (forall j s, i < j -> nth_error (times b ++ [now b]) j = Some s -> (t < s)%Q) /\
    stop_at_time t false None b = Ok b' /\ now b' = tb /\ times b' = firstn i (times b) /\
    Forall2 (fun p q => hist q = firstn i (hist p) /\ nth_error (hist p) i = Some (cur q)) (props b) (props b').
Proof.
  intros b t [LV L1] (s0 & IN & LE) LT. unfold stop_at_time, index_of_last. set (ts := times b ++ [now b]).
  assert (W := last_where_spec (fun x => Qle_bool x t) ts). destruct (last_where (fun x => Qle_bool x t) ts) as [i|].
  2: { exfalso. assert (K : Qle_bool s0 t = false) by (apply W; apply in_or_app; left; exact IN). apply Qle_false in K. lra. }
  destruct W as (tb & N1 & B1 & ABOVE). apply Qle_true in B1.
  assert (IL : i < length (times b)).
  { destruct (Nat.lt_ge_cases i (length (times b))) as [H|H]; [exact H|]. exfalso.
    assert (K : i < length ts) by (apply nth_error_Some; congruence). unfold ts in K. rewrite app_length in K. cbn in K. assert (i = length (times b)) by lia. subst i.
    unfold ts in N1. rewrite nth_error_app2, Nat.sub_diag in N1 by lia. cbn in N1. assert (now b = tb) by congruence. subst tb. lra. }
  exists i, tb. cbn [rbind]. rewrite (at_index_some _ _ _ N1). cbn [rbind].
  assert (EX : exists qs, each (reset_prop i None false) (props b) = Ok qs /\ Forall2 (fun p q => hist q = firstn i (hist p) /\ nth_error (hist p) i = Some (cur q)) (props b) qs).
  { clear IN LE LT. revert LV. generalize (props b). intros l. induction l as [|p l IH]; intros LV; [exists []; split; [reflexivity|constructor]|].
    assert (LP := Forall_inv LV). cbn beta in LP. apply Forall_inv_tail in LV. destruct (IH LV) as (qs & E & F2).
    destruct (nth_error (hist p) i) as [v|] eqn:M; [|apply nth_error_None in M; lia].
    cbn. unfold reset_prop at 1. rewrite (at_index_some _ _ _ M). cbn. rewrite E. cbn. eexists. split; [reflexivity|]. constructor; [|exact F2]. cbn. split; [reflexivity|]. rewrite M. destruct (treat p); reflexivity. }
  destruct EX as (qs & E & F2). rewrite E. cbn [rbind]. eexists. split; [unfold ts in N1; rewrite nth_error_app1 in N1 by lia; exact N1|]. split; [assumption|].
  split; [intros j s J1 J2; apply Qle_false; apply (ABOVE j); assumption|]. split; [reflexivity|]. cbn [now times props flushed]. split; [reflexivity|]. split; [|exact F2].
  unfold ts. rewrite firstn_app. replace (i - length (times b)) with 0 by lia. cbn [firstn]. apply app_nil_r.
Qed.
Print Assumptions C121_reset.
Example C121_reset_case : stop_at_time 15%Q false None course =
  Ok (Binary [0%Q] 10%Q [Prop_ Same Interpolated [Num 1] (Num 3); Prop_ Same (Inferred (Text "x")) [Text "MS"] (Text "HG")]).
Proof. reflexivity. Qed.

(** ** C122: the step as a whole *)
(** With 'stop_at_max_time' the time never exceeds the maximum. *)
Lemma stop_at_time_le t ip f b b' : stop_at_time t ip f b = Ok b' -> (now b' <= t)%Q.
Proof.
  unfold stop_at_time, index_of_last. set (ts := times b ++ [now b]). assert (W := last_where_spec (fun x => Qle_bool x t) ts).
  destruct (last_where (fun x => Qle_bool x t) ts) as [i|]; [|discriminate]. destruct W as (x & N1 & B1 & _). cbn [rbind]. destruct ip.
  - destruct (each _ _); [|discriminate]. cbn [rbind]. destruct f as [[n|]|]; try discriminate; intro H; assert (K : now b' = t) by (apply (f_equal (fun r => match r with Ok z => now z | Raise _ => now b' end)) in H; cbn in H; congruence); rewrite K; lra.
  - rewrite (at_index_some _ _ _ N1). cbn [rbind]. destruct (each _ _); [|discriminate]. cbn [rbind]. apply Qle_true in B1.
    destruct f as [[n|]|]; try discriminate; intro H; assert (K : now b' = x) by (apply (f_equal (fun r => match r with Ok z => now z | Raise _ => now b' end)) in H; cbn in H; congruence); rewrite K; exact B1.
Qed.
Lemma stop_at_end_now m f b : now (stop_at_end m f b) = now b.
Proof. unfold stop_at_end. destruct (negb (Qle_bool (now b) m)); [reflexivity|]. destruct f as [[n|]|]; reflexivity. Qed.
Theorem C122_never_beyond : forall s r sim final m b b' e, method s = StopAtMaxTime -> call s r sim final m b = Ok (Some (b', e)) ->
  (now b' <= m)%Q /\ e <> BeyondMaxTime /\ (e = AtMaxTime <-> (now b' == m)%Q).
Proof.
  intros s r sim final m b b' e M H. unfold call in H. destruct sim as [dt|]; [|discriminate]. rewrite M in H.
  match type of H with (let '(b1, f) := ?X in _) = _ => destruct X as [b1 f] end. destruct b1 as [b1|]; [|discriminate H]. cbn [rbind andb] in H.
  assert (G : exists b2, rbind (Ok b2) (fun b2 => Ok (Some (b2, if negb (Qle_bool (now b2) m) then BeyondMaxTime else if Qeq_bool (now b2) m then AtMaxTime else Plain))) = Ok (Some (b', e)) /\ (now b2 <= m)%Q).
  { destruct (Qle_bool m (now b1)) eqn:Q.
    - destruct (stop_at_time m (stop_interpolate s) f b1) as [b2|] eqn:S; [|discriminate H]. exists b2. split; [exact H|]. exact (stop_at_time_le _ _ _ _ _ S).
    - exists (stop_at_end m f b1). split; [exact H|]. rewrite stop_at_end_now. apply Qle_false in Q. lra. }
  destruct G as (b2 & G & LE). cbn [rbind] in G. assert (B2 : b2 = b') by congruence. subst b2. assert (Q : Qle_bool (now b') m = true) by (apply Qle_true; exact LE). rewrite Q in G. cbn [negb] in G.
  split; [exact LE|]. destruct (Qeq_bool (now b') m) eqn:Q2.
  - assert (e = AtMaxTime) by congruence. subst e. split; [discriminate|]. apply Qeq_bool_iff in Q2. tauto.
  - assert (e = Plain) by congruence. subst e. split; [discriminate|]. split; [discriminate|]. intro Q3. apply Qeq_bool_iff in Q3. congruence.
Qed.
Print Assumptions C122_never_beyond.
(** In general the ending tells how the time compares with the maximum. *)
Theorem C122_ending : forall s r sim final m b b' e, call s r sim final m b = Ok (Some (b', e)) ->
  (e = BeyondMaxTime <-> (m < now b')%Q) /\ (e = AtMaxTime <-> (now b' == m)%Q) /\ (e = Plain <-> (now b' < m)%Q).
Proof.
  intros s r sim final m b b' e H. unfold call in H. destruct sim as [dt|]; [|discriminate].
  match type of H with (let '(b1, f) := ?X in _) = _ => destruct X as [b1 f] end. destruct b1 as [b1|]; [|discriminate H]. cbn [rbind] in H.
  match type of H with rbind ?X _ = _ => destruct X as [b2|] end; [|discriminate H]. cbn [rbind] in H. assert (b2 = b') by congruence. subst b2.
  destruct (Qle_bool (now b') m) eqn:Q; cbn [negb] in H.
  - apply Qle_true in Q. destruct (Qeq_bool (now b') m) eqn:Q2.
    + apply Qeq_bool_iff in Q2. assert (e = AtMaxTime) by congruence. subst e. repeat split; intros; try discriminate; try assumption; try lra; exfalso; lra.
    + assert (Q3 : ~ (now b' == m)%Q) by (intro Q3; apply Qeq_bool_iff in Q3; congruence). assert (e = Plain) by congruence. subst e. repeat split; intros; try discriminate; try (exfalso; lra). destruct (Qlt_le_dec (now b') m); [assumption|]. exfalso. apply Q3. lra.
  - apply Qle_false in Q. assert (e = BeyondMaxTime) by congruence. subst e. repeat split; intros; try discriminate; try assumption; exfalso; lra.
Qed.
Print Assumptions C122_ending.

(** The nearest track, with rows of the histories: the step ends with the track, or at the maximum time if that is before; if both coincide there is an
    IndexError. *)
Theorem C122_nearest : forall s r final m b, method s = StopAtMaxTime -> nearest s = true -> stop_interpolate s = true -> tracking s = true ->
  regular r b -> (exists p, In p (props b) /\ treat p = Interpolated) ->
  (forall b1, update_NN (NN true (saving s) false) r b = Ok b1 -> Forall numbers (props b1)) ->
  (now b + hd 0 (ages r) <= m)%Q ->
  let end_ := (now b + last (ages r) 0)%Q in
  ((end_ < m)%Q -> exists b', call s r (Some (last (ages r) 0%Q)) final m b = Ok (Some (b', Plain)) /\ now b' = end_) /\
  ((m < end_)%Q -> exists b', call s r (Some (last (ages r) 0%Q)) final m b = Ok (Some (b', AtMaxTime)) /\ now b' = m) /\
  ((end_ == m)%Q -> call s r (Some (last (ages r) 0%Q)) final m b = Raise IndexError).
Proof.
  intros s r final m b M NR SI TR RG (p0 & IP & TP) NUM START end_.
  destruct (C120_histories (NN true (saving s) false) r b RG eq_refl) as (b1 & E & NOW & TIMES & F2). cbn [save track] in *.
  assert (NM := NUM _ E).
  assert (LV : level b1).
  { split; [|rewrite TIMES, app_length; destruct RG as (_ & _ & L1 & _); lia]. clear - F2. induction F2 as [|p q l l' H F2 IH]; constructor; [apply H|exact IH]. }
  assert (START' : exists x, In x (times b1) /\ (x <= m)%Q).
  { exists (now b + hd 0 (ages r))%Q. split; [|exact START]. rewrite TIMES. apply in_or_app. right. rewrite map_app. apply in_or_app. right. apply in_map. destruct RG as (L2 & _).
    destruct (ages r) as [|x [|y l]]; [cbn in L2; lia|cbn in L2; lia|]. cbn [length]. replace (S (S (length l)) - 1) with (S (length l)) by lia. left. reflexivity. }
  assert (SAME : update_NN (NN true (saving s) (negb (tracking s))) r b = Ok b1) by (rewrite TR; exact E).
  assert (EX : Exists (fun p => treat p = Interpolated) (props b1)).
  { assert (TT : Forall2 (fun p q => treat q = treat p) (props b) (props b1)).
    { unfold update_NN in E. cbn [track save orb negb] in E. destruct (update_time _ r b) as [[h t]|]; [|discriminate E]. cbn [rbind] in E. destruct (each _ (props b)) as [qs|] eqn:EE; [|discriminate E]. cbn [rbind] in E.
      assert (PB : props b1 = qs) by (assert (b1 = Binary h t qs) by congruence; subst b1; reflexivity). rewrite PB. apply each_inv in EE. clear - EE. induction EE as [|p q l l' H F2 IH]; constructor; [|exact IH].
      unfold update_prop in H. destruct (rows _ _ _ p) as [[[f l0] v]|]; [|discriminate H]. cbn [rbind] in H. assert (Q : q = Prop_ (src p) (treat p) ((hist p ++ (if save (NN true (saving s) false) then [f] else []) ++ (if track (NN true (saving s) false) then l0 else [])) ++ padding (NN true (saving s) false) r (length (times b)) p (hist p ++ (if save (NN true (saving s) false) then [f] else []) ++ (if track (NN true (saving s) false) then l0 else []))) v) by congruence. subst q. reflexivity. }
    clear - TT IP TP. induction TT as [|p q l l' H F2 IH]; [destruct IP|]. destruct IP as [->|IP]; [left; congruence|right; exact (IH IP)]. }
  assert (NE : Forall (fun p => 1 <= length (hist p)) (props b1)).
  { destruct LV as [LV L1]. eapply Forall_impl; [|exact LV]. cbn. intros p H. lia. }
  unfold call. rewrite M, NR, SI, TR. cbn [andb negb]. fold end_ in NOW. change (now b + last (ages r) 0)%Q with end_.
  split; [|split].
  - intro LT. assert (Q : Qle_bool end_ m = true) by (apply Qle_true; lra). rewrite Q. cbn [negb andb]. rewrite E. cbn [rbind]. rewrite NOW.
    assert (Q2 : Qle_bool m end_ = false) by (apply Qle_false; exact LT). rewrite Q2. cbn [rbind]. eexists. split; [|rewrite stop_at_end_now; exact NOW]. rewrite stop_at_end_now, NOW, Q. cbn [negb].
    assert (Q3 : Qeq_bool end_ m = false) by (apply not_true_iff_false; rewrite Qeq_bool_iff; lra). rewrite Q3. reflexivity.
  - intro LT. assert (Q : Qle_bool end_ m = false) by (apply Qle_false; exact LT). rewrite Q. cbn [negb andb]. rewrite E. cbn [rbind]. rewrite NOW.
    assert (Q2 : Qle_bool m end_ = true) by (apply Qle_true; lra). rewrite Q2. cbn [rbind].
    destruct (C121_interpolated None b1 m LV NM START') as (i & tb & ta & b' & _ & _ & _ & _ & ST & NB & _); [rewrite NOW; exact LT|]. cbn [option_map] in ST. rewrite ST. cbn [rbind]. exists b'. rewrite NB.
    assert (Q4 : Qle_bool m m = true) by (apply Qle_true; lra). assert (Q5 : Qeq_bool m m = true) by (apply Qeq_bool_iff; lra). rewrite Q4, Q5. cbn [negb]. split; reflexivity.
  - intro EQ. assert (Q : Qle_bool end_ m = true) by (apply Qle_true; lra). rewrite Q. cbn [negb andb]. rewrite E. cbn [rbind]. rewrite NOW.
    assert (Q2 : Qle_bool m end_ = true) by (apply Qle_true; lra). rewrite Q2. cbn [rbind]. rewrite C121_end; [reflexivity| |exact EX|exact NE]. rewrite NOW. lra.
Qed.
Print Assumptions C122_nearest.
(** Without track_interpolation the rows of the track are used and removed again: the histories are left as they were, apart from the first row with
    save_initial_conditions.  This holds as well for interpolated runs that would go beyond the maximum time. *)
Theorem C122_flushed : forall s r final m b, method s = StopAtMaxTime -> stop_interpolate s = true -> tracking s = false ->
  regular r b -> (forall b1, update_NN (NN true (saving s) true) r b = Ok b1 -> Forall numbers (props b1)) ->
  (now b + hd 0 (ages r) <= m)%Q -> (m < now b + last (ages r) 0)%Q ->
  exists b', call s r (Some (last (ages r) 0%Q)) final m b = Ok (Some (b', AtMaxTime)) /\ now b' = m /\
    times b' = times b ++ (if saving s then [now b + hd 0 (ages r)]%Q else []) /\
    Forall2 (fun p q => length (hist q) = length (times b') /\ firstn (length (times b)) (hist q) = hist p /\
      forall w, treat p = Inferred w -> cur q = w) (props b) (props b').
Proof.
  intros s r final m b M SI TR RG NUM START LT.
  destruct (C120_histories (NN true (saving s) true) r b RG eq_refl) as (b1 & E & NOW & TIMES & F2). cbn [save track] in *.
  assert (NM := NUM _ E).
  assert (LV : level b1).
  { split; [|rewrite TIMES, app_length; destruct RG as (_ & _ & L1 & _); lia]. clear - F2. induction F2 as [|p q l l' H F2 IH]; constructor; [apply H|exact IH]. }
  assert (FIRST : nth_error (times b1) (length (times b) + Nat.b2n (saving s)) = Some (now b + hd 0 (ages r))%Q).
  { rewrite TIMES. rewrite nth_error_app2 by lia. replace (length (times b) + Nat.b2n (saving s) - length (times b)) with (Nat.b2n (saving s)) by lia. destruct RG as (L2 & _).
    destruct (ages r) as [|x [|y l]]; [cbn in L2; lia|cbn in L2; lia|]. destruct (saving s); reflexivity. }
  destruct (C121_interpolated (Some (length (times b) + Nat.b2n (saving s))) b1 m LV NM) as (i & tb & ta & b' & N1 & N2 & _ & ABOVE & ST & NB & TB & FB).
  { exists (now b + hd 0 (ages r))%Q. split; [apply nth_error_In with (1 := FIRST)|exact START]. } { rewrite NOW. exact LT. }
  assert (IGE : length (times b) + Nat.b2n (saving s) <= i).
  { destruct (Nat.le_gt_cases (length (times b) + Nat.b2n (saving s)) i) as [H|H]; [exact H|]. exfalso.
    assert (K := ABOVE _ (now b + hd 0 (ages r))%Q H). rewrite nth_error_app1 in K by (apply nth_error_Some; congruence). specialize (K FIRST). lra. }
  exists b'. unfold call. rewrite M, SI, TR. cbn [negb]. assert (Q : Qle_bool (now b + last (ages r) 0)%Q m = false) by (apply Qle_false; exact LT). rewrite Q. cbn [negb andb].
  rewrite E. cbn [rbind]. rewrite NOW. assert (Q2 : Qle_bool m (now b + last (ages r) 0)%Q = true) by (apply Qle_true; lra). rewrite Q2. unfold flush_entries. cbn [track save].
  cbn [option_map] in ST. rewrite ST. cbn [rbind]. rewrite NB. assert (Q4 : Qle_bool m m = true) by (apply Qle_true; lra). assert (Q5 : Qeq_bool m m = true) by (apply Qeq_bool_iff; lra). rewrite Q4, Q5. cbn [negb].
  split; [reflexivity|]. split; [reflexivity|].
  assert (TB' : times b' = times b ++ (if saving s then [now b + hd 0 (ages r)]%Q else [])).
  { rewrite TB. cbn [cut]. rewrite firstn_firstn. replace (Nat.min (length (times b) + Nat.b2n (saving s)) (S i)) with (length (times b) + Nat.b2n (saving s)) by lia. rewrite TIMES, firstn_app_2. destruct RG as (L2 & _).
    destruct (ages r) as [|x [|y l]]; [cbn in L2; lia|cbn in L2; lia|]. destruct (saving s); reflexivity. }
  split; [exact TB'|]. assert (LT' : length (times b') = length (times b) + Nat.b2n (saving s)) by (rewrite TB', app_length; destruct (saving s); reflexivity). rewrite LT'.
  assert (L1 : length (times b1) > length (times b) + Nat.b2n (saving s)) by (apply nth_error_Some; congruence).
  assert (TT : Forall2 (fun p q => treat q = treat p) (props b) (props b1)).
  { unfold update_NN in E. cbn [track save orb negb] in E. destruct (update_time _ r b) as [[h t]|]; [|discriminate E]. cbn [rbind] in E. destruct (each _ (props b)) as [qs|] eqn:EE; [|discriminate E]. cbn [rbind] in E.
    assert (PB : props b1 = qs) by (assert (b1 = Binary h t qs) by congruence; subst b1; reflexivity). rewrite PB. apply each_inv in EE. clear - EE. induction EE as [|p q l l' H F2 IH]; constructor; [|exact IH].
    unfold update_prop in H. destruct (rows _ _ _ p) as [[[f l0] v]|]; [|discriminate H]. cbn [rbind] in H. apply (f_equal (fun z => match z with Ok y => treat y | Raise _ => treat q end)) in H. cbn in H. congruence. }
  clear - F2 FB IGE L1 TT. revert FB TT. generalize (props b'). induction F2 as [|p q l l' (C1 & C2 & C3 & _) F2 IH]; intros l2 FB TT; inversion FB as [|? z ? l3 (D1 & D2) FB']; subst; [constructor|].
  inversion TT as [|? ? ? ? TP TT']; subst. constructor; [|apply IH; assumption]. rewrite D1. cbn [cut]. rewrite firstn_firstn. replace (Nat.min (length (times b) + Nat.b2n (saving s)) (S i)) with (length (times b) + Nat.b2n (saving s)) by lia.
  split; [rewrite firstn_length; lia|]. split; [rewrite firstn_firstn; replace (Nat.min (length (times b)) (length (times b) + Nat.b2n (saving s))) with (length (times b)) by lia; exact C3|].
  intros w W. rewrite TP, W in D2. exact D2.
Qed.
Print Assumptions C122_flushed.
(** The same if the interpolated run would go beyond the maximum time but the nearest track ends before it. *)
Theorem C122_flushed_end : forall s r final m b dt, method s = StopAtMaxTime -> tracking s = false -> regular r b -> (m < now b + dt)%Q ->
  (now b + last (ages r) 0 < m)%Q ->
  exists b', call s r (Some dt) final m b = Ok (Some (b', Plain)) /\ now b' = (now b + last (ages r) 0)%Q /\
    times b' = times b ++ (if saving s then [now b + hd 0 (ages r)]%Q else []) /\
    Forall2 (fun p q => length (hist q) = length (times b') /\ firstn (length (times b)) (hist q) = hist p) (props b) (props b').
Proof.
  intros s r final m b dt M TR RG EXC LT.
  destruct (C120_histories (NN true (saving s) true) r b RG eq_refl) as (b1 & E & NOW & TIMES & F2). cbn [save track] in *.
  unfold call. rewrite M, TR. cbn [negb]. assert (Q : Qle_bool (now b + dt)%Q m = false) by (apply Qle_false; exact EXC). rewrite Q. cbn [negb andb].
  rewrite E. cbn [rbind]. rewrite NOW. assert (Q2 : Qle_bool m (now b + last (ages r) 0)%Q = false) by (apply Qle_false; lra). rewrite Q2. unfold flush_entries. cbn [track save rbind].
  unfold stop_at_end. rewrite NOW. assert (Q3 : Qle_bool (now b + last (ages r) 0)%Q m = true) by (apply Qle_true; lra). rewrite Q3. cbn [negb now]. rewrite ?NOW, Q3. cbn [negb].
  assert (Q4 : Qeq_bool (now b + last (ages r) 0)%Q m = false) by (apply not_true_iff_false; rewrite Qeq_bool_iff; lra). rewrite Q4.
  eexists. split; [reflexivity|]. cbn [now times props]. split; [reflexivity|].
  assert (TB : firstn (length (times b) + Nat.b2n (saving s)) (times b1) = times b ++ (if saving s then [now b + hd 0 (ages r)]%Q else [])).
  { rewrite TIMES, firstn_app_2. destruct RG as (L2 & _). destruct (ages r) as [|x [|y l]]; [cbn in L2; lia|cbn in L2; lia|]. destruct (saving s); reflexivity. }
  split; [exact TB|]. rewrite TB, app_length. assert (L1 : length (times b1) >= length (times b) + Nat.b2n (saving s)).
  { assert (K := f_equal (@length _) TB). rewrite firstn_length, app_length in K. destruct (saving s); cbn in *; lia. }
  replace (length (if saving s then [(now b + hd 0 (ages r))%Q] else [])) with (Nat.b2n (saving s)) by (destruct (saving s); reflexivity).
  clear - F2 L1. induction F2 as [|p q l l' (C1 & C2 & C3 & _) F2 IH]; [constructor|]. cbn [map]. constructor; [|exact IH]. cbn [hist].
  split; [rewrite firstn_length; lia|]. rewrite firstn_firstn. replace (Nat.min (length (times b)) (length (times b) + Nat.b2n (saving s))) with (length (times b)) by lia. exact C3.
Qed.
Print Assumptions C122_flushed_end.
Definition plain : settings := Settings StopAtMaxTime true true false true false.
Definition tracked : binary := Binary [100%Q] 100%Q [Prop_ (Column [Num 1; Num 2; Num 3]) Interpolated [Num 9] (Num 9)].
Definition at_end (x : result (option (binary * ending))) : option (Q * ending) := match x with Ok (Some (b, e)) => Some (now b, e) | _ => None end.
Example C122_case :
  regular two_rows tracked /\
  at_end (call plain two_rows (Some 10%Q) (fun p => p) 200%Q tracked) = Some (110%Q, Plain) /\
  at_end (call plain two_rows (Some 10%Q) (fun p => p) 107%Q tracked) = Some (107%Q, AtMaxTime) /\
  call plain two_rows (Some 10%Q) (fun p => p) 110%Q tracked = Raise IndexError.
Proof. split; [unfold regular; cbn; repeat split; try lia; repeat constructor|]. repeat split; reflexivity. Qed.

(** 'stop_at_condition' never works with stop_interpolate, which is the default, ... *)
Theorem C122_condition_refuted : forall s r sim final m b j v x, method s = StopAtCondition j v -> stop_interpolate s = true -> call s r sim final m b <> Ok (Some x).
Proof.
  intros s r sim final m b j v x M SI H. unfold call in H. destruct sim as [dt|]; [|discriminate]. rewrite M, SI in H.
  match type of H with (let '(b1, f) := ?X in _) = _ => destruct X as [b1 f] end. destruct b1 as [b1|]; [|discriminate H]. cbn [rbind andb] in H.
  unfold stop_at_property in H. destruct (nth_error (props b1) j); [|discriminate H]. destruct (negb (forallb comparable (hist p ++ [cur p]))); [discriminate H|].
  destruct (index_of_last _ _); discriminate H.
Qed.
(** ... nor without the rows of the track, ... *)
Theorem C122_condition_untracked_refuted : forall s r sim final m b j v x, method s = StopAtCondition j v -> nearest s = true -> tracking s = false -> call s r sim final m b <> Ok (Some x).
Proof.
  intros s r sim final m b j v x M NR TR H. unfold call in H. destruct sim as [dt|]; [|discriminate]. rewrite M, NR, TR in H. cbn [andb negb] in H. rewrite andb_false_r in H. cbn [flush_entries track] in H.
  destruct (update_NN _ r b) as [b1|]; [|discriminate H]. cbn [rbind] in H.
  unfold stop_at_property in H. destruct (nth_error (props b1) j); [|discriminate H]. destruct (negb (forallb comparable (hist p ++ [cur p]))); [discriminate H|].
  destruct (index_of_last _ _); [|discriminate H]. cbn [rbind] in H. destruct (stop_interpolate s); [discriminate H|]. destruct (at_index _ _); [|discriminate H]. cbn [rbind] in H. destruct (each_i _ _ _); discriminate H.
Qed.
(** ... nor if the condition is met by the final model. *)
Theorem C122_condition_met_refuted : forall j v f b p, level b -> nth_error (props b) j = Some p -> (exists q, cur p = Num q /\ (q <= v)%Q) ->
  Forall (fun x => comparable x = true) (hist p) -> stop_at_property j v false f b = Raise IndexError.
Proof.
  intros j v f b p [LV L1] N (q & C & LE) CMP. unfold stop_at_property. rewrite N.
  assert (F : forallb comparable (hist p ++ [cur p]) = true). { apply forallb_forall. intros x H. apply in_app_or in H. rewrite Forall_forall in CMP. destruct H as [H|[<-|[]]]; [auto|rewrite C; reflexivity]. }
  rewrite F. cbn [negb]. unfold index_of_last.
  assert (W : last_where (val_le v) (hist p ++ [cur p]) = Some (length (hist p))).
  { clear CMP F N. induction (hist p) as [|x l IH]; cbn; [rewrite C; cbn; apply Qle_true in LE; rewrite LE; reflexivity|rewrite IH; reflexivity]. }
  rewrite W. cbn [rbind]. unfold at_index. rewrite Forall_forall in LV. rewrite (LV p) by (apply nth_error_In with j; exact N).
  assert (NN : nth_error (times b) (length (times b)) = None) by (apply nth_error_None; lia). rewrite NN. reflexivity.
Qed.
Print Assumptions C122_condition_refuted.
Print Assumptions C122_condition_untracked_refuted.
Print Assumptions C122_condition_met_refuted.
(** A condition that the final model does not meet sets the binary back to the last row that does. *)
Theorem C122_condition : forall j v b p, level b -> nth_error (props b) j = Some p -> Forall (fun x => comparable x = true) (hist p ++ [cur p]) ->
  val_le v (cur p) = false -> Exists (fun x => val_le v x = true) (hist p) ->
  exists i x t b', nth_error (hist p) i = Some x /\ val_le v x = true /\ (forall k y, i < k -> nth_error (hist p) k = Some y -> val_le v y = false) /\
    stop_at_property j v false None b = Ok b' /\ nth_error (times b) i = Some t /\ now b' = t /\ times b' = firstn i (times b) /\
    Forall2 (fun p q => hist q = firstn i (hist p) /\ nth_error (hist p) i = Some (cur q)) (props b) (props b').
Proof.
  intros j v b p [LV L1] N CMP END EX. unfold stop_at_property. rewrite N.
  assert (F : forallb comparable (hist p ++ [cur p]) = true) by (apply forallb_forall; rewrite Forall_forall in CMP; exact CMP). rewrite F. cbn [negb]. unfold index_of_last.
  assert (W := last_where_spec (val_le v) (hist p ++ [cur p])). destruct (last_where (val_le v) (hist p ++ [cur p])) as [i|].
  2: { exfalso. rewrite Exists_exists in EX. destruct EX as (y & I & V). rewrite (W y) in V by (apply in_or_app; left; exact I). discriminate. }
  destruct W as (x & N1 & V1 & ABOVE). assert (LP : length (hist p) = length (times b)) by (rewrite Forall_forall in LV; apply LV; apply nth_error_In with j; exact N).
  assert (IL : i < length (times b)).
  { destruct (Nat.lt_ge_cases i (length (times b))) as [H|H]; [exact H|]. exfalso. assert (K : i < length (hist p ++ [cur p])) by (apply nth_error_Some; congruence). rewrite app_length in K. cbn in K. assert (i = length (hist p)) by lia. subst i.
    rewrite nth_error_app2, Nat.sub_diag in N1 by lia. cbn in N1. assert (cur p = x) by congruence. congruence. }
  destruct (nth_error (times b) i) as [t|] eqn:NT; [|apply nth_error_None in NT; lia]. exists i, x, t. cbn [rbind]. rewrite (at_index_some _ _ _ NT). cbn [rbind].
  assert (G : forall n l, (forall q k, nth_error l k = Some q -> nth_error (props b) (n + k) = Some q) -> Forall (fun p => length (hist p) = length (times b)) l ->
    exists qs, each_i (fun n q => reset_prop i None (n =? j) q) n l = Ok qs /\ Forall2 (fun p q => hist q = firstn i (hist p) /\ nth_error (hist p) i = Some (cur q)) l qs).
  { intros n l. revert n. induction l as [|q l IH]; intros n HN HL; [exists []; split; [reflexivity|constructor]|]. assert (LQ := Forall_inv HL). cbn beta in LQ. apply Forall_inv_tail in HL.
    destruct (IH (S n)) as (qs & E & F2); [intros q' k H; replace (S n + k) with (n + S k) by lia; apply HN; exact H|exact HL|].
    destruct (nth_error (hist q) i) as [w|] eqn:M; [|apply nth_error_None in M; lia].
    cbn. unfold reset_prop at 1. assert (M' : nth_error (if n =? j then hist q ++ [cur q] else hist q) i = Some w) by (destruct (n =? j); [rewrite nth_error_app1 by lia|]; exact M). rewrite (at_index_some _ _ _ M'). cbn. rewrite E. cbn.
    eexists. split; [reflexivity|]. constructor; [|exact F2]. cbn. split; [|rewrite M; destruct (treat q); reflexivity]. destruct (n =? j); [|reflexivity]. rewrite firstn_app. replace (i - length (hist q)) with 0 by lia. cbn. apply app_nil_r. }
  destruct (G 0 (props b)) as (qs & E & F2); [auto|exact LV|]. rewrite E. cbn [rbind]. eexists. rewrite nth_error_app1 in N1 by lia. split; [exact N1|]. split; [exact V1|].
  split; [intros k y K1 K2; apply (ABOVE k); [exact K1|rewrite nth_error_app1; [exact K2|apply nth_error_Some; congruence]]|]. split; [reflexivity|]. split; [exact NT|]. cbn [now times props flushed]. split; [reflexivity|]. split; [reflexivity|exact F2].
Qed.
Print Assumptions C122_condition.
Example C122_condition_case : stop_at_property 0 4%Q false None course =
  Ok (Binary [0%Q] 10%Q [Prop_ Same Interpolated [Num 1] (Num 3); Prop_ Same (Inferred (Text "x")) [Text "MS"] (Text "HG")]) /\
  stop_at_property 0 9%Q false None course = Raise IndexError.
Proof. split; reflexivity. Qed.
(** After a failed run (NaN) nothing but the state is changed. *)
Theorem C122_initial_overflow : forall s r final m b, call s r None final m b = Ok None.
Proof. reflexivity. Qed.
