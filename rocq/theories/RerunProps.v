(** Properties of the file with the runs to run again (C181). *)
From Coq Require Import String List Bool ZArith QArith Qround Qabs Lia Lqa Sorted.
From Verif Require Import PyBase PyStr FromRunProofs RerunModel.
Import ListNotations.
Open Scope Q_scope.
Open Scope list_scope.
Open Scope string_scope.

(** ** What is meant *)
(** The arguments as lists *)
Definition given (r : runs_arg) : list Z := match r with RList l | RIter l => l | _ => [] end.
Definition strs (s : str_arg) : list string := match s with SStr s => [s] | SList l => l | _ => [] end.
Definition checked (s : str_arg) : list string := match s with SNone => ["termination_flag_1"] | _ => strs s end.
(** The run number [k] ended with one of the flags *)
Definition flagged (g : grid) (tfs check : list string) (k : nat) : Prop :=
  exists c col f, In c check /\ In (c, col) (final_flags g) /\ nth_error col k = Some f /\ In f tfs.
(** [x] stands before [y] in [l] *)
Definition before {A} (x y : A) (l : list A) : Prop := exists a b c, l = (a ++ x :: b ++ y :: c)%list.
(** [x] appears in [l] before [y] appears for the first time *)
Definition first_before {A} (x y : A) (l : list A) : Prop := exists a b, l = (a ++ y :: b)%list /\ In x a /\ ~ In y a.
(** Each of [l] once, in the order of their first appearance *)
Definition once_each (idx l : list Z) : Prop := NoDup idx /\ (forall i, In i idx <-> In i l) /\ forall x y, before x y idx -> first_before x y l.
(** The column [csv] of the file is to be made from the column [col] of the initial values *)
Definition THREE : list (string * string) := [("m1", "star_1_mass"); ("m2", "star_2_mass"); ("initial_period_in_days", "period_days")].
Definition sourced (g : grid) (csv col : string) : Prop :=
  In col (map fst (initial_values g)) /\
  (In (csv, col) THREE \/
   (col = "Z" /\ In csv ["initial_z"; "Zbase"; "new_Z"] /\ exists r l a b, runs g = r :: l /\ mesa_dir r = (a ++ csv ++ b)%string)).
(** The value of a run, negative numbers counting from the end *)
Definition value_of (g : grid) (col : string) (i : Z) (x : option Q) : Prop :=
  exists c k, In (col, c) (initial_values g) /\ nth_error c k = Some x /\ (i = Z.of_nat k \/ i = Z.of_nat k - Z.of_nat (length c))%Z.
(** The cell is the value to ten digits after the point *)
Definition near (x : option Q) (c : cell) : Prop :=
  match x with
  | None => c = Num None
  | Some q => exists z, c = Num (Some (z # 10000000000)) /\ Qabs (q - (z # 10000000000)) <= 1 # 20000000000
  end.
Definition new_keys (f : flag_arg) : list string := match f with FDict d => map fst d | _ => [] end.
Definition grid_ok (g : grid) : Prop := NoDup (map fst (initial_values g)) /\ NoDup (map fst (final_flags g)).

(** ** Auxiliary *)
Lemma mem_z x l : existsb (Z.eqb x) l = true <-> In x l.
Proof. rewrite existsb_exists. split; [intros (y & I & E); apply Z.eqb_eq in E; now subst|]. intro I. exists x. split; auto. apply Z.eqb_refl. Qed.
Lemma mem_s x l : existsb (String.eqb x) l = true <-> In x l.
Proof. rewrite existsb_exists. split; [intros (y & I & E); apply String.eqb_eq in E; now subst|]. intro I. exists x. split; auto. apply String.eqb_refl. Qed.
Lemma column_in {A} (d : list (string * list A)) k c : NoDup (map fst d) -> column d k = Some c <-> In (k, c) d.
Proof.
  intro N. unfold column. split; [apply (dget_Some_in String.eqb_spec)|]. intro I. apply (dget_in_nodup String.eqb_spec); auto.
Qed.
Lemma has_in {A} (d : list (string * list A)) k : has d k = true <-> In k (map fst d).
Proof.
  unfold has. destruct (column d k) as [c|] eqn:C.
  - split; auto. intros _. apply (dget_Some_in String.eqb_spec) in C. now apply (in_map fst) in C.
  - split; [discriminate|]. intro I. exfalso. apply (dget_None_notin String.eqb_spec) in C. now apply C.
Qed.

Lemma fromkeys_in : forall l seen x, In x (fromkeys seen l) <-> In x l /\ ~ In x seen.
Proof.
  induction l as [|y l IH]; intros seen x; cbn [fromkeys]; [cbn; tauto|]. destruct (existsb (Z.eqb y) seen) eqn:E.
  - apply mem_z in E. rewrite IH. cbn. intuition (subst; tauto).
  - assert (~ In y seen) by (rewrite <- mem_z; congruence). cbn [In]. rewrite IH. cbn [In].
    destruct (Z.eq_dec y x) as [->|N]; intuition.
Qed.
Lemma fromkeys_nodup : forall l seen, NoDup (fromkeys seen l).
Proof.
  induction l as [|y l IH]; intros seen; cbn [fromkeys]; [constructor|]. destruct (existsb (Z.eqb y) seen); auto. constructor; auto.
  rewrite fromkeys_in. cbn. tauto.
Qed.
Lemma in_first (y : Z) : forall l, In y l -> exists a b, l = (a ++ y :: b)%list /\ ~ In y a.
Proof.
  induction l as [|z l IH]; [contradiction|]. intro I. destruct (Z.eq_dec z y) as [->|N]; [exists [], l; now split|].
  destruct I as [E|I]; [congruence|]. destruct (IH I) as (a & b & -> & NI). exists (z :: a), b. split; auto. intros [E|J]; [congruence|contradiction].
Qed.
Lemma fromkeys_order : forall l seen x y, before x y (fromkeys seen l) -> first_before x y l.
Proof.
  induction l as [|z l IH]; intros seen x y (a & b & c & E); cbn [fromkeys] in E; [destruct a; discriminate|].
  destruct (existsb (Z.eqb z) seen) eqn:M.
  - apply mem_z in M. assert (Y : In y (fromkeys seen l)) by (rewrite E; apply in_or_app; right; right; apply in_or_app; right; now left).
    apply fromkeys_in in Y. destruct (IH seen x y) as (p & q & -> & X & NY); [now exists a, b, c|].
    exists (z :: p), q. split; auto. split; [now right|]. intros [->|J]; tauto.
  - destruct a as [|z' a]; injection E as EZ E.
    + subst z. assert (Y : In y (fromkeys (x :: seen) l)) by (rewrite E; apply in_or_app; right; now left).
      apply fromkeys_in in Y as [Y NY]. destruct (in_first y l Y) as (p & q & -> & NP). exists (x :: p), q. split; auto. split; [now left|].
      intros [->|J]; [apply NY; now left|contradiction].
    + subst z'. assert (Y : In y (fromkeys (z :: seen) l)) by (rewrite E; apply in_or_app; right; right; apply in_or_app; right; now left).
      apply fromkeys_in in Y as [_ NY]. destruct (IH (z :: seen) x y) as (p & q & -> & X & NP); [now exists a, b, c|].
      exists (z :: p), q. split; auto. split; [now right|]. intros [->|J]; [apply NY; now left|contradiction].
Qed.
Lemma unique_once l : once_each (unique l) l.
Proof.
  unfold once_each, unique. split; [apply fromkeys_nodup|]. split; [intro i; rewrite fromkeys_in; cbn; tauto|]. intros x y B. now apply fromkeys_order in B.
Qed.

Lemma flagged_from_in : forall col tfs i0 i, In i (flagged_from i0 col tfs) <-> exists k f, i = (i0 + Z.of_nat k)%Z /\ nth_error col k = Some f /\ In f tfs.
Proof.
  induction col as [|tf col IH]; intros tfs i0 i; cbn [flagged_from].
  - split; [contradiction|]. intros (k & f & _ & N & _). destruct k; discriminate.
  - rewrite in_app_iff, IH. split.
    + intros [I|(k & f & -> & N & F)].
      * destruct (existsb (String.eqb tf) tfs) eqn:M; [|contradiction]. apply mem_s in M. destruct I as [<-|[]]. exists 0%nat, tf. cbn. split; [lia|auto].
      * exists (S k), f. split; [lia|auto].
    + intros ([|k] & f & -> & N & F); cbn in N.
      * left. assert (tf = f) by congruence. subst tf. apply mem_s in F. rewrite F. left. lia.
      * right. exists k, f. split; [lia|auto].
Qed.
Lemma new_runs_in g c t i : NoDup (map fst (final_flags g)) -> In i (new_runs g c t) <-> exists k, i = Z.of_nat k /\ flagged g t c k.
Proof.
  intro N. unfold new_runs. rewrite in_flat_map. split.
  - intros (f & I & J). destruct (column (final_flags g) f) as [col|] eqn:C; [|contradiction]. apply column_in in C; auto.
    apply flagged_from_in in J as (k & tf & -> & NT & F). exists k. split; [lia|]. now exists f, col, tf.
  - intros (k & -> & f & col & tf & I & C & NT & F). exists f. split; auto. apply column_in in C; auto. rewrite C. apply flagged_from_in.
    exists k, tf. split; [lia|auto].
Qed.

(** What is collected *)
Lemma collect_ok g r tf check l r' : collect g r tf check = (Ok l, r') ->
  (exists new, l = (given r ++ new)%list /\ (tf = SNone -> new = []) /\ (tf <> SNone -> new = new_runs g (checked check) (strs tf))) /\
  r <> RBad /\ (r <> RNone \/ tf <> SNone) /\ (tf <> SNone -> tf <> SBad /\ check <> SBad) /\
  r' = match r with RList _ => RList l | _ => r end.
Proof.
  unfold collect. intro H.
  destruct r as [| | |]; destruct tf; destruct check; cbn in H; try (exfalso; congruence);
    assert (E : l = l) by reflexivity; injection H as HL HR; subst l r'; cbn [given strs checked];
    (split; [eexists; split; [reflexivity || (symmetry; apply app_nil_r)|split; intro; congruence || reflexivity]
            |repeat split; congruence || (left; discriminate) || (right; discriminate) || idtac]).
Qed.

Lemma app_nil_inv {A} (l : list A) : l = (l ++ [])%list.
Proof. symmetry. apply app_nil_r. Qed.

Lemma take_ok : forall idx col cells, take col idx = Ok cells ->
  Forall2 (fun i c => exists x, py_nth col i = Some x /\ c = Num (around x)) idx cells.
Proof.
  induction idx as [|i idx IH]; intros col cells H; cbn [take] in H.
  - assert (cells = []) by congruence. subst. constructor.
  - destruct (py_nth col i) as [x|] eqn:P; [|discriminate]. apply bind_ok in H as (c & T & E). assert (cells = Num (around x) :: c) by congruence.
    subst. constructor; [now exists x|now apply IH].
Qed.
Lemma take_total : forall idx col, (forall i, In i idx -> py_nth col i <> None) -> exists cells, take col idx = Ok cells.
Proof.
  induction idx as [|i idx IH]; intros col H; cbn [take]; [now eexists|]. destruct (py_nth col i) as [x|] eqn:P; [|exfalso; apply (H i); [now left|auto]].
  destruct (IH col) as [c T]; [intros j J; apply H; now right|]. rewrite T. now eexists.
Qed.
Lemma py_nth_at {A} (c : list A) i x : py_nth c i = Some x <-> exists k, nth_error c k = Some x /\ (i = Z.of_nat k \/ i = Z.of_nat k - Z.of_nat (length c))%Z.
Proof.
  unfold py_nth. split.
  - destruct (i <? 0)%Z eqn:I; [apply Z.ltb_lt in I|apply Z.ltb_ge in I].
    + destruct (i + Z.of_nat (length c) <? 0)%Z eqn:J; [discriminate|]. apply Z.ltb_ge in J. intro N. exists (Z.to_nat (i + Z.of_nat (length c))).
      split; auto. right. lia.
    + destruct (i <? 0)%Z eqn:J; [discriminate|]. intro N. exists (Z.to_nat i). split; auto. left. lia.
  - intros (k & N & E). assert (L : (k < length c)%nat) by (apply nth_error_Some; congruence).
    destruct E as [->| ->].
    + destruct (Z.of_nat k <? 0)%Z eqn:I; [apply Z.ltb_lt in I; lia|]. rewrite I. now rewrite Nat2Z.id.
    + destruct (Z.of_nat k - Z.of_nat (length c) <? 0)%Z eqn:I; [|apply Z.ltb_ge in I; lia].
      replace (Z.of_nat k - Z.of_nat (length c) + Z.of_nat (length c))%Z with (Z.of_nat k) by lia.
      destruct (Z.of_nat k <? 0)%Z eqn:J; [apply Z.ltb_lt in J; lia|]. now rewrite Nat2Z.id.
Qed.

Lemma round_even_near x : Qabs (x - inject_Z (round_even x)) <= 1 # 2.
Proof.
  unfold round_even. assert (A := Qfloor_le x). assert (B := Qlt_floor x). rewrite inject_Z_plus in B. change (inject_Z 1) with 1 in B.
  destruct (Qcompare (x - inject_Z (Qfloor x)) (1 # 2)) eqn:C.
  - apply Qeq_alt in C. destruct (Z.even (Qfloor x)); apply Qabs_Qle_condition; [|rewrite inject_Z_plus; change (inject_Z 1) with 1]; split; lra.
  - apply Qlt_alt in C. apply Qabs_Qle_condition. split; lra.
  - apply Qgt_alt in C. apply Qabs_Qle_condition. rewrite inject_Z_plus. change (inject_Z 1) with 1. split; lra.
Qed.
Lemma around_near x : near x (Num (around x)).
Proof.
  destruct x as [q|]; cbn [near around]; [|reflexivity]. set (z := round_even _). exists z. split; [reflexivity|].
  assert (R := round_even_near (q * inject_Z (Zpos E10))). fold z in R. apply Qabs_Qle_condition in R as [R1 R2]. apply Qabs_Qle_condition.
  assert (E : (z # 10000000000) == inject_Z z * (1 # 10000000000)) by (unfold Qeq, inject_Z; cbn [Qnum Qden Qmult]; lia).
  rewrite E. change (inject_Z (Zpos E10)) with 10000000000 in R1, R2. split; lra.
Qed.

Lemma named_in (g : grid) (csv col : string) (p : string * string) : In p (if has (initial_values g) col then [(csv, col)] else []) <-> p = (csv, col) /\ In col (map fst (initial_values g)).
Proof.
  rewrite <- has_in. destruct (has (initial_values g) col); cbn; split; [intros [<-|[]]; auto|intros [-> _]; auto|contradiction|intros [_ H]; discriminate].
Qed.
Lemma z_in dir name (p : string * string) : In p (if py_in name dir then [(name, "Z")] else []) <-> p = (name, "Z") /\ exists a b, dir = (a ++ name ++ b)%string.
Proof.
  rewrite <- py_in_iff. destruct (py_in name dir); cbn; split; [intros [<-|[]]; auto|intros [-> _]; auto|contradiction|intros [_ H]; discriminate].
Qed.
Lemma names_in g names : column_names g = Ok names -> forall csv col, In (csv, col) names <-> sourced g csv col.
Proof.
  unfold column_names. intros H csv col.
  assert (B : In (csv, col) ((if has (initial_values g) "star_1_mass" then [("m1", "star_1_mass")] else []) ++ (if has (initial_values g) "star_2_mass" then [("m2", "star_2_mass")] else []) ++
              (if has (initial_values g) "period_days" then [("initial_period_in_days", "period_days")] else []))%list <-> In (csv, col) THREE /\ In col (map fst (initial_values g))).
  { rewrite !in_app_iff, !named_in. unfold THREE. cbn [In]. split.
    - intros [[E I]|[[E I]|[E I]]]; assert (C := f_equal snd E); cbn in C; subst col; split; auto.
    - intros [[E|[E|[E|[]]]] I]; assert (C := f_equal snd E); cbn in C; subst col; auto. }
  destruct (has (initial_values g) "Z") eqn:Z.
  - destruct (runs g) as [|r l] eqn:R; [discriminate|]. assert (E : names = _) by (injection H as H; symmetry; exact H). rewrite E. clear H E.
    rewrite in_app_iff, B, !in_app_iff, !z_in. apply has_in in Z. unfold sourced. clear B. split.
    + intro H. assert (K : In (csv, col) THREE /\ In col (map fst (initial_values g)) \/
        (exists a b, mesa_dir r = (a ++ csv ++ b)%string) /\ col = "Z" /\ In csv ["initial_z"; "Zbase"; "new_Z"]).
      { destruct H as [H|[[E H]|[[E H]|[E H]]]]; [auto| | |]; right; assert (C1 := f_equal fst E); assert (C2 := f_equal snd E);
          cbn in C1, C2; subst csv col; cbn; auto 6. }
      destruct K as [[K I]|((a & b & K) & -> & I)]; [auto|]. split; auto. right. repeat split; auto. exists r, l, a, b. auto.
    + intros [I [K|(-> & K & r' & l' & a & b & RL & D)]]; [tauto|]. assert (r' = r) by congruence. subst r'.
      right. cbn in K. destruct K as [<-|[<-|[<-|[]]]]; [left|right; left|right; right]; split; auto; now exists a, b.
  - assert (E : names = _) by (injection H as H; symmetry; exact H). rewrite E. clear H E. rewrite B. unfold sourced.
    assert (NZ : ~ In "Z" (map fst (initial_values g))) by (rewrite <- has_in; congruence). intuition (subst; tauto).
Qed.
Lemma names_nodup g names : column_names g = Ok names -> NoDup (map fst names).
Proof.
  unfold column_names. intro H.
  assert (E : exists b1 b2 b3 b4 b5 b6 : bool, names = ((if b1 then [("m1", "star_1_mass")] else []) ++ (if b2 then [("m2", "star_2_mass")] else []) ++
    (if b3 then [("initial_period_in_days", "period_days")] else []) ++ (if b4 then [("initial_z", "Z")] else []) ++ (if b5 then [("Zbase", "Z")] else []) ++ (if b6 then [("new_Z", "Z")] else []))%list).
  { destruct (has (initial_values g) "Z"); [destruct (runs g) as [|r l]; [discriminate|]|]; injection H as <-.
    - do 6 eexists. rewrite <- !app_assoc. reflexivity.
    - do 3 eexists. exists false, false, false. rewrite !app_nil_r. reflexivity. }
  destruct E as (b1 & b2 & b3 & b4 & b5 & b6 & ->).
  destruct b1, b2, b3, b4, b5, b6; cbn; repeat constructor; cbn; intuition discriminate.
Qed.

Definition cells_of (g : grid) (col : string) (idx : list Z) (cells : list cell) : Prop := Forall2 (fun i c => exists x, value_of g col i x /\ near x c) idx cells.
Lemma data_ok g : NoDup (map fst (initial_values g)) -> forall names idx d, runs_data g names idx = Ok d ->
  (forall csv col, In (csv, col) names -> In col (map fst (initial_values g))) ->
  map fst d = map fst names /\ (forall csv col, In (csv, col) names -> exists cells, In (csv, cells) d /\ cells_of g col idx cells) /\
  (forall k c, In (k, c) d -> length c = length idx).
Proof.
  intros N. induction names as [|[csv col] names IH]; intros idx d H S; cbn [runs_data] in H.
  - assert (d = []) by congruence. subst. cbn. split; auto. split; intros; contradiction.
  - apply bind_ok in H as (c & T & H). apply bind_ok in H as (d' & R & E). assert (d = (csv, c) :: d') by congruence. subst d. clear E.
    destruct (IH _ _ R) as (F & C & L); [intros; apply (S csv0); now right|]. cbn [map fst]. split; [now rewrite F|].
    assert (X : exists v, column (initial_values g) col = Some v).
    { assert (I := S csv col (or_introl eq_refl)). apply has_in in I. unfold has in I. destruct (column (initial_values g) col); [now eexists|discriminate]. }
    destruct X as [v V]. rewrite V in T. apply take_ok in T. apply column_in in V; auto.
    assert (T' : cells_of g col idx c).
    { unfold cells_of. clear -T V. induction T as [|i x idx c (y & P & ->) _ IHT]; constructor; auto. exists y. split; [|apply around_near].
      apply py_nth_at in P as (k & NK & E). now exists v, k. }
    split.
    + intros csv0 col0 [E|I].
      * assert (csv0 = csv /\ col0 = col) as [-> ->] by (split; congruence). exists c. split; [now left|auto].
      * destruct (C _ _ I) as (cells & J & K). exists cells. split; [now right|auto].
    + intros k c0 [E|I]; [|now apply (L k)]. assert (c0 = c) by congruence. subst c0. clear -T. induction T; cbn; congruence.
Qed.

(** The table is that of these runs: the values of the grid, and the new options with the same value in all rows *)
Definition table_of (g : grid) (new : flag_arg) (idx : list Z) (d : list (string * list cell)) : Prop :=
  NoDup (map fst d) /\
  (forall csv col, sourced g csv col -> ~ In csv (new_keys new) -> exists cells, In (csv, cells) d /\ cells_of g col idx cells) /\
  exists n, ((exists csv col, sourced g csv col) -> n = length idx) /\ ((forall csv col, ~ sourced g csv col) -> n = 0%nat) /\
    (forall k c, In (k, c) d -> length c = n /\ (In k (new_keys new) \/ exists col, sourced g k col)) /\
    (forall nd k v, new = FDict nd -> NoDup (map fst nd) -> In (k, v) nd -> In (k, repeat (Lit v) n) d).

Lemma dset_all_nodup (l d : list (string * list cell)) : NoDup (map fst d) -> NoDup (map fst (dset_all String.eqb d l)).
Proof. intro N. apply (NoDup_dset_all String.eqb_spec). exact N. Qed.
Lemma last_write_in {V} : forall (l : list (string * V)) k v, NoDup (map fst l) -> In (k, v) l -> last_write String.eqb l k = Some v.
Proof.
  induction l as [|[k0 v0] l IH]; intros k v N I; [contradiction|]. inversion N as [|? ? NI N']; subst. rewrite last_write_cons.
  destruct I as [E|I].
  - assert (k0 = k /\ v0 = v) as [-> ->] by (split; congruence). rewrite String.eqb_refl.
    destruct (last_write String.eqb l k) as [w|] eqn:W; auto. exfalso. apply NI. clear -W. cbn. induction l as [|[k1 v1] l IH]; [discriminate|].
    rewrite last_write_cons in W. destruct (last_write String.eqb l k); [right; apply IH; exact W|]. destruct (String.eqb_spec k k1); [now left|discriminate].
  - rewrite (IH k v); auto.
Qed.
Lemma last_write_some {V} : forall (l : list (string * V)) k v, last_write String.eqb l k = Some v -> In (k, v) l.
Proof.
  induction l as [|[k1 v1] l IH]; intros k v W; [discriminate|]. rewrite last_write_cons in W.
  destruct (last_write String.eqb l k) as [w|] eqn:L; [right; apply IH; congruence|]. destruct (String.eqb_spec k k1) as [->|]; [|discriminate].
  left. congruence.
Qed.
Lemma last_write_notin {V} (l : list (string * V)) k : ~ In k (map fst l) -> last_write String.eqb l k = None.
Proof.
  intro N. destruct (last_write String.eqb l k) as [w|] eqn:W; auto. apply last_write_some in W. exfalso. apply N. now apply (in_map fst) in W.
Qed.

Lemma rerun_ok g r tf new check d r' : grid_ok g -> rerun g r tf new check = (Ok d, r') ->
  exists l, collect g r tf check = (Ok l, r') /\ table_of g new (unique l) d.
Proof.
  intros [GI GF] H. unfold rerun in H. destruct (collect g r tf check) as [[l|e] r0] eqn:C; [|cbn in H; discriminate].
  assert (H1 := f_equal fst H). assert (H2 := f_equal snd H). cbn [fst snd] in H1, H2. subst r0. exists l. split; auto. clear H C. cbn [rbind] in H1.
  apply bind_ok in H1 as (names & CN & H1). apply bind_ok in H1 as (d0 & D & F).
  assert (IN := names_in _ _ CN). assert (ND := names_nodup _ _ CN).
  destruct (data_ok _ GI _ _ _ D) as (K & COL & LEN); [intros csv col I; apply IN in I; apply I|].
  set (idx := unique l) in *. assert (N0 : n_rows d0 = length idx \/ d0 = []).
  { destruct d0 as [|[k c] d0]; [now right|]. left. cbn. apply (LEN k). now left. }
  assert (NN : ((exists csv col, sourced g csv col) -> n_rows d0 = length idx) /\ ((forall csv col, ~ sourced g csv col) -> n_rows d0 = 0%nat)).
  { split.
    - intros (csv & col & S). apply IN in S. destruct N0 as [N0| ->]; auto. exfalso. destruct names; [contradiction|discriminate].
    - intros S. destruct names as [|[csv col] names]; [|exfalso; apply (S csv col), IN; now left]. destruct d0; [reflexivity|discriminate]. }
  destruct NN as [N1 N2].
  assert (SRC : forall k c, In (k, c) d0 -> exists col, sourced g k col).
  { intros k c I. apply (in_map fst) in I. rewrite K in I. apply in_map_iff in I as ([csv col] & E & I). cbn in E. subst csv. exists col. now apply IN. }
  assert (NDd : NoDup (map fst d0)) by (rewrite K; auto).
  assert (LR : forall k c, In (k, c) d0 -> length c = n_rows d0).
  { intros k c I. rewrite (LEN _ _ I). symmetry. apply N1. destruct (SRC _ _ I) as [col S]. now exists k, col. }
  unfold add_flags in F. destruct new as [|nd|]; [| |discriminate].
  - assert (d = d0) by congruence. subst d. unfold table_of. split; auto. split; [intros csv col S _; apply COL; now apply IN|].
    exists (n_rows d0). split; [exact N1|]. split; [exact N2|]. split; [|intros; discriminate].
    intros k c I. split; [now apply (LR k)|right; now apply (SRC _ c)].
  - set (upd := map (fun kv => (fst kv, repeat (Lit (snd kv)) (n_rows d0))) nd) in *.
    assert (d = dset_all String.eqb d0 upd) by congruence. subst d. clear F.
    assert (UK : map fst upd = map fst nd) by (unfold upd; rewrite map_map; reflexivity).
    assert (NDA := dset_all_nodup upd _ NDd). unfold table_of. split; [exact NDA|]. split; [|exists (n_rows d0); split; [exact N1|]; split; [exact N2|]; split].
    + intros csv col S NI. cbn [new_keys] in NI. destruct (COL csv col) as (cells & I & CO); [now apply IN|]. exists cells. split; auto.
      apply (dget_Some_in String.eqb_spec). rewrite (dget_dset_all String.eqb_spec). rewrite last_write_notin by (now rewrite UK).
      now apply (dget_in_nodup String.eqb_spec).
    + intros k c I. cbn [new_keys]. apply (dget_in_nodup String.eqb_spec) in I; auto. rewrite (dget_dset_all String.eqb_spec) in I.
      destruct (last_write String.eqb upd k) as [w|] eqn:W.
      * assert (w = c) by congruence. subst w. apply last_write_some in W. split.
        -- unfold upd in W. apply in_map_iff in W as (kv & E & _). assert (E2 := f_equal snd E). cbn in E2. subst c. apply repeat_length.
        -- left. rewrite <- UK. now apply (in_map fst) in W.
      * apply (dget_Some_in String.eqb_spec) in I. split; [now apply (LR k)|right; now apply (SRC _ c)].
    + intros nd' k v E NDn I. assert (nd' = nd) by congruence. subst nd'.
      apply (dget_Some_in String.eqb_spec). rewrite (dget_dset_all String.eqb_spec). rewrite (last_write_in upd k (repeat (Lit v) (n_rows d0))); auto; [now rewrite UK|].
      unfold upd. apply in_map_iff. now exists (k, v).
Qed.

(** ** C181 *)

(** The file has one row for each of the runs asked for: those given and those which ended with one of the flags, each once, in the order in which they were
    first named (those given first); with the masses, the period and the metallicity of the run to ten digits, and the new options. *)
Theorem C181_file :
  forall g r tf new check d r', grid_ok g -> rerun g r tf new check = (Ok d, r') ->
  exists rest idx,
    (forall i, In i rest <-> tf <> SNone /\ exists k, i = Z.of_nat k /\ flagged g (strs tf) (checked check) k) /\
    once_each idx (given r ++ rest) /\ table_of g new idx d.
Proof.
  intros g r tf new check d r' OK H. destruct (rerun_ok _ _ _ _ _ _ _ OK H) as (l & C & T). apply collect_ok in C as ((rest & E & E1 & E2) & _).
  exists rest, (unique l). subst l. split; [|split; [apply unique_once|exact T]]. intro i. destruct OK as [_ GF]. destruct tf.
  - rewrite (E1 eq_refl). cbn. tauto.
  - rewrite E2 by discriminate. rewrite new_runs_in by auto. split; [intro; split; [discriminate|auto]|tauto].
  - rewrite E2 by discriminate. rewrite new_runs_in by auto. split; [intro; split; [discriminate|auto]|tauto].
  - rewrite E2 by discriminate. rewrite new_runs_in by auto. split; [intro; split; [discriminate|auto]|tauto].
Qed.
Print Assumptions C181_file.

(** When the file is written: something has to be asked for, with arguments of the right kind; a grid with metallicities has to have runs; and all runs
    asked for have to exist. *)
Definition exists_run (g : grid) (i : Z) : Prop := forall csv col, sourced g csv col -> exists x, value_of g col i x.
Lemma data_total g : NoDup (map fst (initial_values g)) -> forall names idx,
  (forall csv col, In (csv, col) names -> In col (map fst (initial_values g))) ->
  (forall i csv col, In i idx -> In (csv, col) names -> exists x, value_of g col i x) -> exists d, runs_data g names idx = Ok d.
Proof.
  intros N. induction names as [|[csv col] names IH]; intros idx S V; cbn [runs_data]; [now eexists|].
  destruct (IH idx) as [d D]; [intros; apply (S csv0); now right|intros i csv0 col0 I J; apply (V i csv0); auto; now right|].
  destruct (take_total idx (match column (initial_values g) col with Some c => c | None => [] end)) as [c T].
  { intros i I. destruct (V i csv col I (or_introl eq_refl)) as (x & v & k & C & NK & E). apply column_in in C; auto. rewrite C.
    assert (P : py_nth v i = Some x) by (apply py_nth_at; now exists k). congruence. }
  rewrite T, D. now eexists.
Qed.
Theorem C181_written :
  forall g r tf new check, grid_ok g ->
  (exists d, fst (rerun g r tf new check) = Ok d) <->
  (r <> RBad /\ (r <> RNone \/ tf <> SNone) /\ (tf <> SNone -> tf <> SBad /\ check <> SBad) /\ new <> FBad /\
   (In "Z" (map fst (initial_values g)) -> runs g <> []) /\
   (forall i, In i (given r) -> exists_run g i) /\
   (tf <> SNone -> forall k, flagged g (strs tf) (checked check) k -> exists_run g (Z.of_nat k))).
Proof.
  intros g r tf new check OK. assert (OK' := OK). destruct OK' as [GI GF]. split.
  - intros [d H]. destruct (rerun g r tf new check) as [res r'] eqn:R. cbn in H. subst res. assert (R' := R).
    destruct (C181_file _ _ _ _ _ _ _ OK R) as (rest & idx & IR & (_ & IX & _) & _ & _ & _).
    unfold rerun in R. destruct (collect g r tf check) as [[l|e] r0] eqn:C; [|cbn in R; discriminate].
    assert (R1 := f_equal fst R). cbn [fst] in R1. cbn [rbind] in R1.
    apply bind_ok in R1 as (names & CN & R1). apply bind_ok in R1 as (d0 & D & F).
    assert (IN := names_in _ _ CN). apply collect_ok in C as (L & A1 & A2 & A3 & _).
    assert (EX : forall i, In i l -> exists_run g i).
    { intros i I csv col S. apply IN in S. destruct (data_ok _ GI _ _ _ D) as (_ & COL & _); [intros c0 c1 J; apply IN in J; apply J|].
      destruct (COL _ _ S) as (cells & _ & F2). assert (U : In i (unique l)) by (apply (proj1 (proj2 (unique_once l))); auto). unfold cells_of in F2.
      clear -U F2. induction F2 as [|j c idx cells (x & V & _) _ IHF]; [contradiction|]. destruct U as [->|U]; [now exists x|auto]. }
    destruct L as (new' & -> & E1 & E2).
    repeat split; auto; try (apply A3; auto).
    + intros ->. discriminate.
    + intros Z E. unfold column_names in CN. apply has_in in Z. rewrite Z, E in CN. discriminate.
    + intros i I. apply EX, in_or_app. now left.
    + intros T k FL. apply EX, in_or_app. right. rewrite E2 by auto. apply new_runs_in; auto. now exists k.
  - intros (B & ONE & STR & NB & Z & GV & FL).
    assert (C : exists l r', collect g r tf check = (Ok l, r')).
    { unfold collect. destruct r as [|l|l|]; [|now destruct tf, check; (eexists; eexists; reflexivity) || (exfalso; destruct STR as [S1 S2]; congruence)..|congruence].
      destruct tf, check; try (eexists; eexists; reflexivity); exfalso; try (destruct STR as [S1 S2]; congruence). all: destruct ONE; congruence. }
    destruct C as (l & r' & C). unfold rerun. rewrite C. cbn [fst rbind]. apply collect_ok in C as ((rest & -> & E1 & E2) & _).
    assert (EX : forall i, In i (given r ++ rest) -> exists_run g i).
    { intros i I. apply in_app_or in I as [I|I]; auto.
      assert (T : tf <> SNone) by (intro E; rewrite (E1 E) in I; contradiction). rewrite E2 in I by auto. apply new_runs_in in I as (k & -> & I); auto. }
    assert (CN : exists names, column_names g = Ok names).
    { unfold column_names. destruct (has (initial_values g) "Z") eqn:HZ; [|now eexists]. apply has_in in HZ. destruct (runs g); [exfalso; now apply (Z HZ)|now eexists]. }
    destruct CN as [names CN]. rewrite CN. cbn [rbind]. assert (IN := names_in _ _ CN).
    destruct (data_total _ GI names (unique (given r ++ rest))) as [d D].
    + intros csv col I. apply IN in I. apply I.
    + intros i csv col I J. apply (proj1 (proj1 (proj2 (unique_once (given r ++ rest))) i)) in I. apply IN in J. now apply (EX _ I csv).
    + rewrite D. cbn [rbind]. destruct new; cbn [add_flags]; [now eexists|now eexists|congruence].
Qed.
Print Assumptions C181_written.

(** A list given together with flags has been extended for the caller by the runs with the flags, in all other cases the argument is as before. *)
Theorem C181_argument :
  forall g r tf new check d r', grid_ok g -> rerun g r tf new check = (Ok d, r') ->
  (forall l, r = RList l -> exists rest, r' = RList (l ++ rest) /\
     forall i, In i rest <-> tf <> SNone /\ exists k, i = Z.of_nat k /\ flagged g (strs tf) (checked check) k) /\
  ((forall l, r <> RList l) -> r' = r).
Proof.
  intros g r tf new check d r' OK H. destruct (rerun_ok _ _ _ _ _ _ _ OK H) as (l & C & _). apply collect_ok in C as ((rest & -> & E1 & E2) & _ & _ & _ & ->).
  destruct OK as [_ GF]. split.
  - intros l ->. cbn [given]. exists rest. split; auto. intro i. destruct tf; [rewrite (E1 eq_refl); cbn; tauto|..];
      (rewrite E2 by discriminate; rewrite new_runs_in by auto; split; [intro; split; [discriminate|auto]|tauto]).
  - intros N. destruct r; auto. exfalso. now apply (N l).
Qed.
Print Assumptions C181_argument.

(** Calling a second time with the same list and other flags asks for the runs of the first call too. *)
Definition g0 : grid :=
  Grid [Run "/g/initial_z_1.42e-02_m1_10" None None None; Run "/g/initial_z_1.42e-02_m1_20" None None None; Run "/g/initial_z_1.42e-02_m1_30" None None None]
       [("star_1_mass", [Some 10; Some (20 + (1 # 30000000000)); None]); ("Z", [Some (142 # 10000); Some (142 # 10000); Some (142 # 10000)])]
       [("termination_flag_1", ["max_age"; "min_timestep_limit"; "min_timestep_limit"])].
Lemma g0_ok : grid_ok g0.
Proof. split; cbn; repeat constructor; cbn; intuition discriminate. Qed.
Theorem C181_argument_refuted : ~ (forall g r tf new check d r', grid_ok g -> rerun g r tf new check = (Ok d, r') -> r' = r).
Proof. intro H. specialize (H g0 (RList [0%Z]) (SStr "min_timestep_limit") FNone SNone _ _ g0_ok eq_refl). discriminate. Qed.
Print Assumptions C181_argument_refuted.

(** The same run named from both ends is run twice; and an option named like a column replaces it. *)
Theorem C181_twice_refuted :
  ~ (forall g r d r', grid_ok g -> rerun g r SNone FNone SNone = (Ok d, r') -> forall csv c, In (csv, c) d -> (length c <= length (runs g))%nat).
Proof.
  intro H. specialize (H g0 (RList [0; 1; 2; -1]%Z) _ _ g0_ok eq_refl "m1" _ (or_introl eq_refl)). cbn in H. lia.
Qed.
Print Assumptions C181_twice_refuted.
Theorem C181_replaced_refuted :
  ~ (forall g r new d r', grid_ok g -> rerun g r SNone new SNone = (Ok d, r') -> forall csv col, sourced g csv col -> exists cells, In (csv, cells) d /\ cells_of g col (unique (given r)) cells).
Proof.
  intro H. specialize (H g0 (RList [0%Z]) (FDict [("m1", "7")]) _ _ g0_ok eq_refl "m1" "star_1_mass").
  destruct H as (cells & I & F); [split; [now left|left; now left]|]. cbn in I. destruct I as [E|[E|[]]]; [|discriminate].
  assert (E2 := f_equal snd E). cbn in E2. subst cells. cbn in F. inversion F as [|? ? ? ? (x & V & NR) _]; subst.
  destruct x as [q|]; cbn in NR; [|discriminate]. destruct NR as (z & NR & _). discriminate.
Qed.
Print Assumptions C181_replaced_refuted.
(** A grid without any of the columns gives a file without rows, whatever is asked for. *)
Theorem C181_no_columns :
  forall g r tf new check d r', grid_ok g -> rerun g r tf new check = (Ok d, r') -> (forall csv col, ~ sourced g csv col) -> forall k c, In (k, c) d -> c = [].
Proof.
  intros g r tf new check d r' OK H S k c I. destruct (C181_file _ _ _ _ _ _ _ OK H) as (_ & _ & _ & _ & _ & _ & n & _ & N & L & _).
  destruct (L _ _ I) as [LC _]. rewrite (N S) in LC. now destruct c.
Qed.
Print Assumptions C181_no_columns.

Example C181_example :
  rerun g0 (RIter [2; 0]%Z) (SList ["min_timestep_limit"]) (FDict [("opacity_max", "0.5")]) SNone
  = (Ok [("m1", [Num None; Num (Some (100000000000 # E10)); Num (Some (200000000000 # E10))]);
         ("initial_z", [Num (Some (142000000 # E10)); Num (Some (142000000 # E10)); Num (Some (142000000 # E10))]);
         ("opacity_max", [Lit "0.5"; Lit "0.5"; Lit "0.5"])], RIter [2; 0]%Z).
Proof. vm_compute. reflexivity. Qed.
Example C181_example_raises :
  fst (rerun g0 RNone SNone FNone SNone) = Raise ValueError /\ fst (rerun g0 (RList [3%Z]) SNone FNone SNone) = Raise IndexError /\
  fst (rerun (Grid [] [("Z", [])] []) (RList []) SNone FNone SNone) = Raise (OtherError "GridError") /\
  fst (rerun g0 RNone (SStr "max_age") FNone (SList ["termination_flag_1"; "no such flag"])) =
    Ok [("m1", [Num (Some (100000000000 # E10))]); ("initial_z", [Num (Some (142000000 # E10))])].
Proof. repeat split; vm_compute; reflexivity. Qed.
