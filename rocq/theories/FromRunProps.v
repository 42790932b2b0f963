(** C157, C158: binaries and stars made from runs *)
From Coq Require Import Reals String Bool List Arith Lia Lra.
From Verif Require Import PyBase PyStr StarInitModel StarInitProofs StarInitProps FromRunModel FromRunProofs.
From Verif Require BinaryModel.
Import ListNotations.
Open Scope string_scope.
Open Scope nat_scope.
Open Scope list_scope.

(** ** Specification *)
(** Properties of the binary and the columns of its history *)
Inductive bcol : string -> string -> Prop :=
| b_time : bcol "time" "age" | b_sep : bcol "separation" "binary_separation" | b_per : bcol "orbital_period" "period_days"
| b_same p : In p ["rl_relative_overflow_1"; "rl_relative_overflow_2"; "lg_mtransfer_rate"; "trap_radius"; "acc_radius"; "t_sync_rad_1"; "t_sync_conv_1"; "t_sync_rad_2"; "t_sync_conv_2"] -> bcol p p.
(** Properties of a star in its own history *)
Definition ELSEWHERE : list string := ["state"; "metallicity"; "mass"; "lg_mdot"; "lg_system_mdot"; "lg_wind_mdot"; "profile"].
Inductive scol : string -> string -> Prop :=
| s_spin : scol "spin" "spin_parameter"
| s_same p : In p BinaryModel.STARPROPERTIES -> ~ In p ELSEWHERE -> p <> "spin" -> scol p p.
(** Properties of a star in the history of the binary *)
Inductive s_bcol : bool -> string -> string -> Prop :=
| sb_m1 : s_bcol false "mass" "star_1_mass" | sb_m2 : s_bcol true "mass" "star_2_mass"
| sb_d1 : s_bcol false "lg_mdot" "lg_mstar_dot_1" | sb_d2 : s_bcol true "lg_mdot" "lg_mstar_dot_2"
| sb_s1 : s_bcol false "lg_system_mdot" "lg_system_mdot_1" | sb_s2 : s_bcol true "lg_system_mdot" "lg_system_mdot_2"
| sb_w1 : s_bcol false "lg_wind_mdot" "lg_wind_mdot_1" | sb_w2 : s_bcol true "lg_wind_mdot" "lg_wind_mdot_2".
(** The property is the final value [pre ++ c] and its history the column [c] (or that one value) *)
Definition taken (t : table) (fv : kwargs) (pre : string) (history : bool) (n : nat) (o : attrs) (p c : string) : Prop :=
  exists v l, In ((pre ++ c)%string, v) fv /\ o p = Some v /\ o (p ++ "_history")%string = Some (Lst l) /\ length l = n /\ (if history then In (c, l) t else l = [v]).
Definition unknown (n : nat) (o : attrs) (p : string) : Prop := o p = Some Nil /\ o (p ++ "_history")%string = Some (Lst (repeat Nil n)).
Definition from_column t fv pre history n o p c : Prop :=
  (In c (map fst t) -> taken t fv pre history n o p c) /\ (~ In c (map fst t) -> unknown n o p).
Definition steps (t : table) (age : string) (history : bool) (n : nat) : Prop := if history then exists l, In (age, l) t /\ length l = n else n = 1.
Definition star_of (second : bool) (b : binary) : attrs := if second then b_star2 b else b_star1 b.
Definition history_of (second : bool) (r : run) : option table := if second then history2 r else history1 r.
Definition tag (second : bool) : string := if second then "S2_" else "S1_".
Definition profile_of (second : bool) (r : run) : val := if second then final_profile2 r else final_profile1 r.

(** ** Proofs *)
Lemma dget_pair {V : Type} : forall (d : list (string * V)) k v, dget String.eqb d k = Some v -> In (k, v) d.
Proof.
  induction d as [|(x, w) d IH]; intros k v H; [discriminate|]. cbn [dget] in H. destruct (String.eqb_spec k x) as [-> | _]; [left; congruence|right; now apply IH].
Qed.
Lemma has_column_in t c : has_column t c = true <-> In c (map fst t).
Proof.
  unfold has_column. rewrite existsb_exists, in_map_iff. split.
  - intros (x & I & E). apply String.eqb_eq in E. now exists x.
  - intros (x & E & I). exists x. split; [exact I|]. now apply String.eqb_eq.
Qed.
Lemma fetch_taken t fv pre hi n o p c v h : fetch t fv pre hi c = Ok (v, h) -> length h = n -> o p = Some v -> o (hist p) = Some (Lst h) -> taken t fv pre hi n o p c.
Proof.
  intros E L O1 O2. unfold fetch, field in E. destruct (kget fv (pre ++ c)%string) as [w|] eqn:EV; [|discriminate]. cbn [rbind] in E.
  apply bind_ok in E. destruct E as (h' & E1 & E2). assert (w = v) by congruence. assert (h' = h) by congruence. subst w h'.
  exists v, h. split; [now apply dget_pair|]. split; [exact O1|]. split; [exact O2|]. split; [exact L|]. destruct hi; [|congruence].
  unfold column in E1. destruct (dget String.eqb t c) as [l|] eqn:EC; [|discriminate]. assert (l = h) by congruence. subst l. now apply dget_pair.
Qed.
Lemma load_column d t fv pre hi n o p c v h : colname_of d p = Some c -> load d t fv pre hi n p = Ok (v, h) -> length h = n -> o p = Some v -> o (hist p) = Some (Lst h) ->
  from_column t fv pre hi n o p c.
Proof.
  intros C E L O1 O2. unfold load in E. rewrite C in E. destruct (has_column t c) eqn:HC.
  - apply has_column_in in HC. split; [intros _|contradiction]. now apply (fetch_taken t fv pre hi n o p c v h).
  - split; intros I; [apply has_column_in in I; congruence|]. split; [rewrite O1; congruence|].
    fold (hist p). rewrite O2. congruence.
Qed.
Lemma bcol_spec p c : bcol p c -> In p BinaryModel.BINARYPROPERTIES /\ colname_of BINARY_ATTRIBUTES_FROM_HISTORY p = Some c /\ ~ In p ("eccentricity" :: THREE).
Proof.
  intros H. destruct H as [| | |p I]; try (split; [unfold BinaryModel.BINARYPROPERTIES; cbn [In]; tauto|split; [reflexivity|cbn [In THREE]; intuition discriminate]]).
  cbn [In] in I. repeat (destruct I as [<- | I]; [split; [unfold BinaryModel.BINARYPROPERTIES; cbn [In]; tauto|split; [reflexivity|cbn [In THREE]; intuition discriminate]]|]). destruct I.
Qed.
Lemma scol_spec p c : scol p c -> In p BinaryModel.STARPROPERTIES /\ colname_of STAR_ATTRIBUTES_FROM_STAR_HISTORY p = Some c /\ ~ In p ELSEWHERE.
Proof.
  intros [|q I N S].
  - split; [prop_in|]. split; [reflexivity|]. cbn [In ELSEWHERE]. intuition discriminate.
  - split; [exact I|]. split; [|exact N]. unfold colname_of, STAR_ATTRIBUTES_FROM_STAR_HISTORY. cbn [dget]. cbn [In ELSEWHERE] in N.
    repeat match goal with |- context [String.eqb q ?x] => destruct (String.eqb_spec q x) as [-> | _]; [exfalso; tauto|] end. reflexivity.
Qed.
Lemma s_bcol_spec s p c : s_bcol s p c -> In (p, c) (STAR_ATTRIBUTES_FROM_BINARY_HISTORY s).
Proof. intros []; cbn [STAR_ATTRIBUTES_FROM_BINARY_HISTORY In]; tauto. Qed.

(** What happens to a star *)
Record star_made (chk : attrs -> nat -> bool -> result val) (r : run) (t : table) (history profiles : bool) (n : nat) (z : val) (second : bool) (s0 s : attrs) : Prop := {
  made_own : forall h, history_of second r = Some h -> forall p c, scol p c -> from_column h (final_values r) (tag second) history n s p c;
  made_alone : history_of second r = None -> forall p, In p BinaryModel.STARPROPERTIES -> ~ In p ELSEWHERE -> s p = s0 p /\ s (hist p) = s0 (hist p);
  made_Z : s "metallicity" = Some z /\ s "metallicity_history" = Some (Lst (repeat z n));
  made_binary : forall p c, s_bcol second p c -> taken t (final_values r) "" history n s p c;
  made_He : forall k v, NoDup (map fst (final_values r)) -> In ((tag second ++ k)%string, v) (final_values r) -> py_in "at_He_depletion" k = true -> s k = Some v;
  made_profile : profiles = true -> s "profile" = Some (profile_of second r);
  made_state : 0 < n /\ exists before l, s "state_history" = Some (Lst l) /\ length l = n /\ (exists v, nth_error l (n - 1) = Some v /\ s "state" = Some v) /\
     (forall i, i < n -> exists v, nth_error l i = Some v /\ chk before i (match history_of second r with None => true | Some _ => false end) = Ok v) /\
     (forall k, k <> "state" -> k <> "state_history" -> k <> "profile" -> before k = s k) /\
     (history_of second r = None -> before "state" = s0 "state" /\ before "state_history" = s0 "state_history")
}.
Lemma star_made_from chk r t history profiles n z second s0 s1 s2 s3 s4 :
  (match history_of second r with None => Ok s0 | Some h => load_all STAR_ATTRIBUTES_FROM_STAR_HISTORY h (final_values r) (tag second) history n BinaryModel.STARPROPERTIES s0 end) = Ok s1 ->
  load_from_binary t (final_values r) history n second (set_one n "metallicity" z s1) = Ok s2 ->
  s3 = fold_left (at_He_star (tag second)) (final_values r) s2 ->
  star_states chk (is_none (history_of second r)) n s3 = Ok s4 ->
  star_made chk r t history profiles n z second s0 (if profiles then setattr s4 "profile" (profile_of second r) else s4).
Proof.
  intros E1 E2 E3 E4. destruct (from_binary_spec _ _ _ _ _ _ _ E2) as (A1 & A2). destruct (star_states_spec _ _ _ _ _ E4) as (l & v & NP & L & ST & LAST & ES & EH & KS).
  assert (T : tag second = "S1_" \/ tag second = "S2_") by (destruct second; cbn; tauto).
  assert (K3 : forall k, at_He k = false -> s3 k = s2 k) by (intros k K; rewrite E3; apply at_He_star_keep; [exact T|now right]).
  set (s := if profiles then setattr s4 "profile" (profile_of second r) else s4).
  assert (KP : forall k, k <> "profile" -> s k = s4 k) by (intros k K; unfold s; destruct profiles; [now apply set_other|reflexivity]).
  assert (KA : forall k, k <> "profile" -> k <> "state" -> k <> hist "state" -> at_He k = false -> s k = s2 k) by (intros k Q1 Q2 Q3 Q4; now rewrite KP, KS, K3).
  assert (KB : forall p, In p BinaryModel.STARPROPERTIES -> p <> "profile" -> p <> "state" -> s p = s2 p /\ s (hist p) = s2 (hist p)).
  { intros p I N1 N2. destruct (star_no_He p I) as (H1 & H2). split.
    - apply KA; trivial. exact (plain_hist BinaryModel.STARPROPERTIES p "state" star_plain I).
    - apply KA; trivial; intros K; [|assert (Q := hist_in p); rewrite K in Q; discriminate|apply hist_inj in K; contradiction].
      assert (Q := hist_in p). rewrite K in Q. discriminate. }
  assert (KC : forall p, In p BinaryModel.STARPROPERTIES -> ~ In p ELSEWHERE -> s p = s1 p /\ s (hist p) = s1 (hist p)).
  { intros p I N. cbn [In ELSEWHERE] in N. destruct (KB p I) as (B1 & B2); [intros ->; tauto|intros ->; tauto|]. rewrite B1, B2.
    assert (U : forall x, (x = p \/ x = hist p) -> ~ touched FROM_BINARY x /\ x <> "metallicity" /\ x <> hist "metallicity").
    { intros x X. assert (Y : forall q, In q ELSEWHERE -> x <> q /\ x <> hist q).
      { intros q Q. destruct X as [-> | ->].
        - split; [intros ->; apply N; exact Q|]. exact (plain_hist BinaryModel.STARPROPERTIES p q star_plain I).
        - split; [|intros K; apply hist_inj in K; subst q; apply N; exact Q].
          intros K. assert (W := hist_in p). rewrite K in W. cbn [In ELSEWHERE] in Q. repeat (destruct Q as [<- | Q]; [discriminate W|]). destruct Q. }
      split.
      - intros (q & Q & D). cbn [In FROM_BINARY] in Q. destruct (Y q) as (Y1 & Y2); [cbn [In ELSEWHERE]; tauto|]. destruct D; contradiction.
      - apply (Y "metallicity"). cbn [In ELSEWHERE]. tauto. }
    destruct (U p (or_introl eq_refl)) as (U1 & U2 & U3). destruct (U (hist p) (or_intror eq_refl)) as (V1 & V2 & V3).
    rewrite !A2 by assumption. unfold set_one. now rewrite !set_other. }
  constructor.
  - intros h EH1 p c SC. destruct (scol_spec p c SC) as (I & C & N). rewrite EH1 in E1.
    destruct (load_all_spec _ _ _ _ _ _ _ _ _ star_nodup star_plain E1) as (B & _). destruct (B p I) as (w & hh & B1 & B2 & B3 & B4).
    destruct (KC p I N) as (K1 & K2). apply (load_column STAR_ATTRIBUTES_FROM_STAR_HISTORY h _ _ _ _ _ _ _ w hh C B1 B2); congruence.
  - intros EH1 p I N. rewrite EH1 in E1. assert (s1 = s0) by congruence. subst s1. exact (KC p I N).
  - destruct (KB "metallicity" ltac:(prop_in) ltac:(discriminate) ltac:(discriminate)) as (B1 & B2). change "metallicity_history" with (hist "metallicity"). rewrite B1, B2.
    assert (U : ~ touched FROM_BINARY "metallicity" /\ ~ touched FROM_BINARY (hist "metallicity")).
    { split; intros (q & Q & D); cbn [In FROM_BINARY] in Q; repeat (destruct Q as [<- | Q]; [destruct D; discriminate|]); destruct Q. }
    destruct U as (U1 & U2). rewrite !A2 by assumption. unfold set_one. split; [rewrite set_other by discriminate; apply set_same|apply set_same].
  - intros p c SB. apply s_bcol_spec in SB. destruct (A1 p c SB) as (w & hh & B1 & B2 & B3 & B4).
    assert (I : In p FROM_BINARY) by (rewrite <- (from_binary_keys second); change p with (fst (p, c)); now apply in_map).
    assert (IS : In p BinaryModel.STARPROPERTIES /\ p <> "profile" /\ p <> "state").
    { cbn [In FROM_BINARY] in I. repeat (destruct I as [<- | I]; [split; [prop_in|split; discriminate]|]). destruct I. }
    destruct IS as (I1 & I2 & I3). destruct (KB p I1 I2 I3) as (K1 & K2). apply (fetch_taken t _ _ _ _ _ _ _ w hh B1 B2); congruence.
  - intros k w ND I HE. assert (N : k <> "profile" /\ k <> "state" /\ k <> hist "state") by (repeat split; intros ->; discriminate HE).
    destruct N as (N1 & N2 & N3). rewrite KP, KS, E3 by assumption. now apply (at_He_star_set (tag second) T).
  - intros ->. apply set_same.
  - split; [exact NP|]. exists s3, l. rewrite (KP "state_history"), (KP "state") by discriminate. change "state_history" with (hist "state"). split; [exact EH|]. split; [exact L|]. split; [exists v; now split|]. split.
    + intros i I. destruct (ST i I) as (w & W1 & W2). exists w. split; [exact W1|]. rewrite <- W2. destruct (history_of second r); reflexivity.
    + split; [intros k N1 N2 N3; rewrite KP by exact N3; symmetry; apply KS; assumption|].
      intros EN. rewrite EN in E1. assert (s1 = s0) by congruence. subst s1. rewrite !K3 by reflexivity.
      assert (U : ~ touched FROM_BINARY "state" /\ ~ touched FROM_BINARY "state_history").
      { split; intros (q & Q & D); cbn [In FROM_BINARY] in Q; repeat (destruct Q as [<- | Q]; [destruct D; discriminate|]); destruct Q. }
      destruct U as (U1 & U2). rewrite !A2 by assumption. unfold set_one. rewrite !set_other by discriminate. split; reflexivity.
Qed.
(** All parts of from_run *)
Lemma from_run_parts chk sts r history profiles b t : BinaryStar_from_run chk sts r history profiles = Ok b -> binary_history r = Some t ->
  exists b0 n o z b1, BinaryStar None None [] = Ok b0 /\ steps t "age" history n /\ kget (initial_values r) "Z" = Some z /\
  load_all BINARY_ATTRIBUTES_FROM_HISTORY t (final_values r) "" history n BinaryModel.BINARYPROPERTIES (b_attrs b0) = Ok o /\
  binary_states sts n (Bin (set_one n "eccentricity" (num 0) (fold_left at_He_binary (final_values r) o)) (b_star1 b1) (b_star2 b1)) = Ok b1 /\
  b_attrs b = b_attrs b1 /\ b_star1 b = (if profiles then setattr (b_star1 b1) "profile" (final_profile1 r) else b_star1 b1) /\
  b_star2 b = (if profiles then setattr (b_star2 b1) "profile" (final_profile2 r) else b_star2 b1) /\
  star_made chk r t history profiles n z false (b_star1 b0) (b_star1 b) /\ star_made chk r t history profiles n z true (b_star2 b0) (b_star2 b).
Proof.
  intros E ET. unfold BinaryStar_from_run in E. rewrite ET in E.
  apply bind_ok in E. destruct E as (b0 & EB & E). apply bind_ok in E. destruct E as (n & EN & E). apply bind_ok in E. destruct E as (o & EO & E).
  apply bind_ok in E. destruct E as (s1 & E1 & E). apply bind_ok in E. destruct E as (s2 & E2 & E). apply bind_ok in E. destruct E as (z & EZ & E).
  apply bind_ok in E. destruct E as (u1 & F1 & E). apply bind_ok in E. destruct E as (u2 & F2 & E). cbv zeta in E.
  apply bind_ok in E. destruct E as (w1 & G1 & E). apply bind_ok in E. destruct E as (w2 & G2 & E). apply bind_ok in E. destruct E as (b1 & EB1 & E).
  destruct (binary_states_spec _ _ _ _ EB1) as (l & _ & _ & S1 & S2 & _). cbn [b_star1 b_star2] in S1, S2.
  assert (M1 := star_made_from chk r t history profiles n z false (b_star1 b0) s1 u1 _ w1 E1 F1 eq_refl G1).
  assert (M2 := star_made_from chk r t history profiles n z true (b_star2 b0) s2 u2 _ w2 E2 F2 eq_refl G2).
  exists b0, n, o, z, b1. split; [exact EB|]. split.
  { unfold steps. destruct history; [|congruence]. apply bind_ok in EN. destruct EN as (a & EA & EN). unfold column in EA.
    destruct (dget String.eqb t "age") as [a'|] eqn:ED; [|discriminate]. assert (a' = a) by congruence. subst a'. exists a. split; [now apply dget_pair|congruence]. }
  split. { unfold field in EZ. destruct (kget (initial_values r) "Z"); [congruence|discriminate]. }
  split; [exact EO|]. rewrite S1, S2. split; [exact EB1|].
  match type of E with Ok ?x = _ => assert (W : b = x) by congruence end.
  assert (W1 : b_attrs b = b_attrs b1) by (rewrite W; destruct profiles; reflexivity).
  assert (W2 : b_star1 b = if profiles then setattr w1 "profile" (final_profile1 r) else w1) by (rewrite W; destruct profiles; cbn [b_star1]; congruence).
  assert (W3 : b_star2 b = if profiles then setattr w2 "profile" (final_profile2 r) else w2) by (rewrite W; destruct profiles; cbn [b_star2]; congruence).
  split; [exact W1|]. split; [exact W2|]. split; [exact W3|]. rewrite W2, W3. split; [exact M1|exact M2].
Qed.

(** ** Theorems *)
(** The properties of the binary: its histories are the columns of the run, its values the final ones. *)
Theorem C157_binary :
  forall chk sts r history profiles b t, BinaryStar_from_run chk sts r history profiles = Ok b -> binary_history r = Some t ->
  exists n, steps t "age" history n /\ 0 < n /\
  (forall p c, bcol p c -> from_column t (final_values r) "" history n (b_attrs b) p c) /\
  b_attrs b "eccentricity" = Some (num 0) /\ b_attrs b "eccentricity_history" = Some (Lst (repeat (num 0) n)) /\
  unknown n (b_attrs b) "V_sys" /\ unknown n (b_attrs b) "nearest_neighbour_distance" /\
  exists l, length l = n /\ b_attrs b "state_history" = Some (Lst (map (fun t => fst (fst t)) l)) /\ b_attrs b "event_history" = Some (Lst (map (fun t => snd (fst t)) l)) /\
  b_attrs b "mass_transfer_case_history" = Some (Lst (map snd l)) /\
  (exists s e c, nth_error l (n - 1) = Some (s, e, c) /\ b_attrs b "state" = Some s /\ b_attrs b "event" = Some e /\ b_attrs b "mass_transfer_case" = Some c) /\
  (* each step is judged with all that comes before it *)
  (forall j x, nth_error l j = Some x -> exists bj, sts bj j = Ok x /\ b_attrs bj "state_history" = Some (Lst (map (fun t => fst (fst t)) (firstn j l))) /\
     (forall k, (forall q, In q ["state"; "event"; "mass_transfer_case"] -> k <> q /\ k <> (q ++ "_history")%string) -> b_attrs bj k = b_attrs b k)).
Proof.
  intros chk sts r history profiles b t E ET. destruct (from_run_parts _ _ _ _ _ _ _ E ET) as (b0 & n & o & z & b1 & _ & ST & _ & EO & EB & W & _ & _ & M1 & _).
  destruct (made_state _ _ _ _ _ _ _ _ _ _ M1) as (NP & _). exists n. split; [exact ST|]. split; [exact NP|].
  destruct (binary_states_spec _ _ _ _ EB) as (l & L & HO & _ & _ & KE & CU & EV). cbn [b_attrs] in *. rewrite W.
  destruct (load_all_spec _ _ _ _ _ _ _ _ _ binary_nodup binary_plain EO) as (A & _).
  assert (K : forall p, In p BinaryModel.BINARYPROPERTIES -> ~ In p ("eccentricity" :: THREE) -> b_attrs b1 p = o p /\ b_attrs b1 (hist p) = o (hist p)).
  { intros p I N. destruct (binary_no_He p I) as (H1 & H2).
    assert (U : forall x, (x = p \/ x = hist p) -> ~ touched THREE x /\ x <> "eccentricity" /\ x <> hist "eccentricity").
    { intros x X. assert (Y : forall q, In q ("eccentricity" :: THREE) -> x <> q /\ x <> hist q).
      { intros q Q. destruct X as [-> | ->].
        - split; [intros ->; apply N; exact Q|]. exact (plain_hist BinaryModel.BINARYPROPERTIES p q binary_plain I).
        - split; [|intros KK; apply hist_inj in KK; subst q; apply N; exact Q].
          intros KK. assert (V := hist_in p). rewrite KK in V. cbn [In THREE] in Q. repeat (destruct Q as [<- | Q]; [discriminate V|]). destruct Q. }
      split; [|apply Y; now left]. intros (q & Q & D). destruct (Y q (or_intror Q)). destruct D; contradiction. }
    destruct (U p (or_introl eq_refl)) as (U1 & U2 & U3). destruct (U (hist p) (or_intror eq_refl)) as (V1 & V2 & V3).
    rewrite !KE by assumption. unfold set_one. rewrite !set_other by assumption. rewrite !at_He_binary_keep by assumption. split; reflexivity. }
  assert (NO : forall p, In p BinaryModel.BINARYPROPERTIES -> ~ In p ("eccentricity" :: THREE) -> colname_of BINARY_ATTRIBUTES_FROM_HISTORY p = None -> unknown n (b_attrs b1) p).
  { intros p I N C. destruct (K p I N) as (K1 & K2). destruct (A p I) as (v & h & B1 & B2 & B3 & B4). unfold load in B1. rewrite C in B1.
    unfold unknown. fold (hist p). rewrite K1, K2, B3, B4. split; congruence. }
  split; [|split; [|split; [|split; [|split]]]].
  - intros p c BC. destruct (bcol_spec p c BC) as (I & C & N). destruct (K p I N) as (K1 & K2). destruct (A p I) as (v & h & B1 & B2 & B3 & B4).
    apply (load_column _ _ _ _ _ _ _ _ _ v h C B1 B2); congruence.
  - rewrite KE; [unfold set_one; rewrite set_other by discriminate; apply set_same|].
    intros (q & Q & D). cbn [In THREE] in Q. repeat (destruct Q as [<- | Q]; [destruct D; discriminate|]). destruct Q.
  - rewrite KE; [unfold set_one; apply set_same|].
    intros (q & Q & D). cbn [In THREE] in Q. repeat (destruct Q as [<- | Q]; [destruct D; discriminate|]). destruct Q.
  - apply NO; [bprop_in|cbn [In THREE]; intuition discriminate|reflexivity].
  - apply NO; [bprop_in|cbn [In THREE]; intuition discriminate|reflexivity].
  - exists l. split; [exact L|]. destruct HO as (HO1 & HO2 & HO3). split; [exact HO1|]. split; [exact HO2|]. split; [exact HO3|]. split.
    + destruct (nth_error l (n - 1)) as [((s, e), c)|] eqn:EN; [|apply nth_error_None in EN; lia]. exists s, e, c. split; [reflexivity|]. exact (CU _ eq_refl NP).
    + intros j x X. destruct (EV j x X) as (bj & C1 & (C2 & _) & _ & _ & C5). exists bj. split; [exact C1|]. split; [exact C2|].
      intros k KK. assert (U : ~ touched THREE k) by (intros (q & Q & [D | D]); destruct (KK q Q); contradiction). rewrite KE, C5 by exact U. reflexivity.
Qed.
Print Assumptions C157_binary.
(** The stars *)
Theorem C157_stars :
  forall chk sts r history profiles b t, BinaryStar_from_run chk sts r history profiles = Ok b -> binary_history r = Some t ->
  exists n z, steps t "age" history n /\ In ("Z", z) (initial_values r) /\
  forall second, let s := star_of second b in
  (forall h, history_of second r = Some h -> forall p c, scol p c -> from_column h (final_values r) (tag second) history n s p c) /\
  (forall p c, s_bcol second p c -> taken t (final_values r) "" history n s p c) /\
  s "metallicity" = Some z /\ s "metallicity_history" = Some (Lst (repeat z n)) /\
  (forall k v, NoDup (map fst (final_values r)) -> In ((tag second ++ k)%string, v) (final_values r) -> py_in "at_He_depletion" k = true -> s k = Some v) /\
  (profiles = true -> s "profile" = Some (profile_of second r)) /\
  exists before l, s "state_history" = Some (Lst l) /\ length l = n /\ (exists v, nth_error l (n - 1) = Some v /\ s "state" = Some v) /\
  (forall i, i < n -> exists v, nth_error l i = Some v /\ chk before i (match history_of second r with None => true | Some _ => false end) = Ok v) /\
  (forall k, k <> "state" -> k <> "state_history" -> k <> "profile" -> before k = s k).
Proof.
  intros chk sts r history profiles b t E ET. destruct (from_run_parts _ _ _ _ _ _ _ E ET) as (b0 & n & o & z & b1 & _ & ST & EZ & _ & _ & _ & _ & _ & M1 & M2).
  exists n, z. split; [exact ST|]. split; [now apply dget_pair|].
  assert (G : forall second s0, star_made chk r t history profiles n z second s0 (star_of second b) -> let s := star_of second b in
    (forall h, history_of second r = Some h -> forall p c, scol p c -> from_column h (final_values r) (tag second) history n s p c) /\
    (forall p c, s_bcol second p c -> taken t (final_values r) "" history n s p c) /\
    s "metallicity" = Some z /\ s "metallicity_history" = Some (Lst (repeat z n)) /\
    (forall k v, NoDup (map fst (final_values r)) -> In ((tag second ++ k)%string, v) (final_values r) -> py_in "at_He_depletion" k = true -> s k = Some v) /\
    (profiles = true -> s "profile" = Some (profile_of second r)) /\
    exists before l, s "state_history" = Some (Lst l) /\ length l = n /\ (exists v, nth_error l (n - 1) = Some v /\ s "state" = Some v) /\
    (forall i, i < n -> exists v, nth_error l i = Some v /\ chk before i (match history_of second r with None => true | Some _ => false end) = Ok v) /\
    (forall k, k <> "state" -> k <> "state_history" -> k <> "profile" -> before k = s k)).
  { intros second s0 [H1 H2 (H3a & H3b) H4 H5 H6 (_ & H7)]. cbv zeta. split; [exact H1|]. split; [exact H4|]. split; [exact H3a|]. split; [exact H3b|]. split; [exact H5|]. split; [exact H6|].
    destruct H7 as (be & l & Q1 & Q2 & Q3 & Q4 & Q5 & _). exists be, l. split; [exact Q1|]. split; [exact Q2|]. split; [exact Q3|]. split; [exact Q4|exact Q5]. }
  intros [|]; [exact (G true _ M2)|exact (G false _ M1)].
Qed.
Print Assumptions C157_stars.
(** A companion without a history (a compact object) keeps the values of SingleStar(), with histories of one entry, except for what the history of
    the binary has.  Its states are those of compact objects of its masses with nothing but degenerate matter. *)
Lemma parts_default b0 : BinaryStar None None [] = Ok b0 -> exists s0, SingleStar [] = Ok s0 /\ b_star1 b0 = s0 /\ b_star2 b0 = s0.
Proof.
  intros EB. unfold BinaryStar in EB. apply bind_ok in EB. destruct EB as (s0 & ES & EB). rewrite ES in EB. cbn [rbind] in EB. destruct (fold_left _ _ _) as (oo, kw').
  apply bind_ok in EB. destruct EB as (o' & _ & EB). match type of EB with Ok ?x = _ => assert (WB : b0 = x) by congruence end. subst b0. cbn [b_star1 b_star2].
  exists s0. now split.
Qed.
Lemma no_kw : usual BinaryModel.STARPROPERTIES []. Proof. intros q _. reflexivity. Qed.
Theorem C157_companion :
  forall chk sts r history profiles b t second, BinaryStar_from_run chk sts r history profiles = Ok b -> binary_history r = Some t -> history_of second r = None ->
  (exists s0, SingleStar [] = Ok s0 /\ forall p, In p BinaryModel.STARPROPERTIES -> ~ In p ELSEWHERE ->
     star_of second b p = s0 p /\ exists v, star_of second b (p ++ "_history")%string = Some (Lst [v])) /\
  ((forall s i, chk s i true = check_CO s i) -> forall ms, star_of second b "mass_history" = Some (Lst ms) ->
     exists l, star_of second b "state_history" = Some (Lst l) /\ length l = length ms /\
     forall i m, nth_error ms i = Some (num m) -> (0 < m)%R -> exists st, nth_error l i = Some (Txt st) /\ remnant m False st).
Proof.
  intros chk sts r history profiles b t second E ET EH. destruct (from_run_parts _ _ _ _ _ _ _ E ET) as (b0 & n & o & z & b1 & EB & _ & _ & _ & _ & _ & _ & _ & M1 & M2).
  destruct (parts_default b0 EB) as (s0 & ES & D1 & D2). rewrite D1 in M1. rewrite D2 in M2.
  assert (M : star_made chk r t history profiles n z second s0 (star_of second b)) by (destruct second; assumption). clear M1 M2. split.
  - exists s0. split; [exact ES|]. intros p I N. destruct (C155_every [] s0 ES no_kw p I) as (v & V1 & V2).
    destruct (made_alone _ _ _ _ _ _ _ _ _ _ M EH p I N) as (H1 & H2). split; [exact H1|]. exists v. fold (hist p). now rewrite H2.
  - intros CH ms EM. destruct (made_state _ _ _ _ _ _ _ _ _ _ M) as (NP & be & l & Q1 & Q2 & _ & Q4 & Q5 & Q6). destruct (Q6 EH) as (S1 & S2).
    assert (ML : length ms = n).
    { assert (SB : s_bcol second "mass" (if second then "star_2_mass" else "star_1_mass")) by (destruct second; constructor).
      destruct (made_binary _ _ _ _ _ _ _ _ _ _ M _ _ SB) as (v & lm & _ & _ & L1 & L2 & _). change ("mass" ++ "_history")%string with "mass_history" in L1.
      rewrite EM in L1. assert (ms = lm) by congruence. now subst. }
    exists l. split; [exact Q1|]. split; [congruence|]. intros i m NI P.
    assert (I : i < n) by (rewrite <- ML; apply nth_error_Some; congruence). destruct (Q4 i I) as (v & V1 & V2). rewrite EH, CH in V2.
    unfold check_CO in V2. rewrite (Q5 "mass_history"), EM in V2 by discriminate. rewrite S2 in V2.
    assert (SS : s0 "state" = Some (Txt "") /\ s0 "state_history" = Some (Lst [Txt ""])).
    { assert (X := C155_no_state [] s0 ES no_kw eq_refl). destruct (C155_every [] s0 ES no_kw "state") as (w & W1 & W2); [prop_in|]. split; [exact X|].
      change ("state" ++ "_history")%string with "state_history" in W2. rewrite W2. congruence. }
    destruct SS as (SS1 & SS2). rewrite SS2, NI in V2. cbn [rev app] in V2. rewrite S1, SS1 in V2. cbn [String.eqb orb] in V2.
    unfold num in V2. cbn [infer_CO any_positive positive nan rbind orb] in V2. destruct (Rle_dec m 0); [lra|]. cbn [rbind] in V2.
    destruct (Rlt_dec m 1.1) as [Q | Q]; destruct (Rle_dec m 1.46) as [QQ | QQ]; cbn [andb rbind] in V2; try lra.
    + exists "WD". split; [rewrite V1; congruence|]. constructor. now left.
    + destruct (Rle_dec m 2.5); cbn [rbind] in V2; [exists "NS"|exists "BH"]; (split; [rewrite V1; congruence|]); [apply is_NS; [lra|intros []]|apply is_BH; lra].
    + destruct (Rle_dec m 2.5); cbn [rbind] in V2; [exists "NS"|exists "BH"]; (split; [rewrite V1; congruence|]); [apply is_NS; [lra|intros []]|apply is_BH; lra].
Qed.
Print Assumptions C157_companion.
(** Without a history of the binary nothing is read. *)
Theorem C157_none :
  forall chk sts r history profiles, binary_history r = None -> BinaryStar_from_run chk sts r history profiles = BinaryStar None None [] /\ exists b, BinaryStar None None [] = Ok b.
Proof.
  intros chk sts r history profiles H. unfold BinaryStar_from_run. rewrite H.
  destruct (C155_refuses [] "H-rich_Core_H_burning" eq_refl eq_refl) as (A & _). destruct A as ((_ & A) & _); [cbn [In]; intuition discriminate|].
  destruct A as (s0 & ES); [exists 1%R, 0.2703%R; split; [reflexivity|cbn [zams_table In]; tauto]|].
  assert (U : usual BinaryModel.STARPROPERTIES []) by (intros q _; reflexivity).
  assert (EM : s0 "mass" = Some nan).
  { destruct (living_parts [] s0 "H-rich_Core_H_burning" ES U eq_refl eq_refl) as (kw2 & f & _ & _ & P & _). rewrite (P "mass"); [reflexivity|prop_in|discriminate|reflexivity]. }
  unfold BinaryStar. rewrite ES. cbn [rbind]. destruct (fold_left _ _ _) as (o, kw'). unfold complete_orbit, attr. rewrite EM. cbn [notna nan andb]. cbn [rbind]. split; [reflexivity|now eexists].
Qed.
Print Assumptions C157_none.
(** A black hole with a star of which two steps are known *)
Definition demo : run :=
  Run (Some [("age", [num 0; num 5]); ("binary_separation", [num 10; num 11]); ("star_1_mass", [num 20; num 19]); ("star_2_mass", [num 7; num 8]);
             ("lg_mstar_dot_1", [nan; nan]); ("lg_mstar_dot_2", [nan; nan]); ("lg_system_mdot_1", [nan; nan]); ("lg_system_mdot_2", [nan; nan]); ("lg_wind_mdot_1", [nan; nan]); ("lg_wind_mdot_2", [nan; nan])])
      (Some [("log_R", [num 1; num 2]); ("spin_parameter", [num 3; num 4])]) None
      [("age", num 5); ("binary_separation", num 11); ("star_1_mass", num 19); ("star_2_mass", num 8); ("lg_mstar_dot_1", nan); ("lg_mstar_dot_2", nan); ("lg_system_mdot_1", nan);
       ("lg_system_mdot_2", nan); ("lg_wind_mdot_1", nan); ("lg_wind_mdot_2", nan); ("S1_log_R", num 2); ("S1_spin_parameter", num 4); ("S1_co_core_mass_at_He_depletion", num 6)]
      [("Z", num 0.0142)] Nil Nil.
Definition some_states (s : attrs) (i : nat) (co : bool) : result val := if co then Ok (Txt "BH") else Ok (Txt "H-rich_Core_H_burning").
Definition some_binary_states (b : binary) (i : nat) : result (val * val * val) := Ok (Txt "detached", Nil, Nil).
Example C157_case :
  exists b, BinaryStar_from_run some_states some_binary_states demo true true = Ok b /\
  b_attrs b "separation_history" = Some (Lst [num 10; num 11]) /\ b_star1 b "spin" = Some (num 4) /\ b_star1 b "co_core_mass_at_He_depletion" = Some (num 6) /\
  b_star2 b "mass" = Some (num 8) /\ (exists v, b_star2 b "log_R_history" = Some (Lst [v])).
Proof.
  destruct (proj2 (C157_none some_states some_binary_states (Run None None None [] [] Nil Nil) true true eq_refl)) as (b0 & EB). unfold BinaryStar_from_run. rewrite EB. cbn [rbind].
  destruct (parts_default b0 EB) as (s0 & ES & D1 & D2). rewrite D1, D2.
  destruct (C155_every [] s0 ES no_kw "log_R") as (w & _ & W); [prop_in|]. cbn [String.append] in W. clear D1 D2 EB ES.
  set (A := b_attrs b0). clearbody A. vm_compute. eexists. split; [reflexivity|]. split; [reflexivity|]. split; [reflexivity|]. split; [reflexivity|]. split; [reflexivity|].
  exists w. exact W.
Qed.

(** ** C158: single stars *)
Inductive s1col : string -> string -> Prop :=
| s1_mass : s1col "mass" "star_mass"
| s1_spin : s1col "spin" "spin_parameter"
| s1_same p : In p BinaryModel.STARPROPERTIES -> ~ In p ["state"; "metallicity"; "profile"; "mass"; "spin"] -> s1col p p.
Lemma s1col_spec p c : s1col p c -> In p BinaryModel.STARPROPERTIES /\ colname_of STAR_ATTRIBUTES_FROM_STAR_HISTORY_SINGLE p = Some c /\ ~ In p ["state"; "metallicity"; "profile"].
Proof.
  intros [| |q I N].
  - split; [prop_in|]. split; [reflexivity|]. cbn [In]. intuition discriminate.
  - split; [prop_in|]. split; [reflexivity|]. cbn [In]. intuition discriminate.
  - split; [exact I|]. cbn [In] in N. split; [|cbn [In]; tauto]. unfold colname_of, STAR_ATTRIBUTES_FROM_STAR_HISTORY_SINGLE. cbn [dget].
    repeat match goal with |- context [String.eqb q ?x] => destruct (String.eqb_spec q x) as [-> | _]; [exfalso; tauto|] end. reflexivity.
Qed.
Theorem C158_star :
  forall chk r history profile s t, SingleStar_from_run chk r history profile = Ok s -> history1 r = Some t ->
  exists n z, steps t "star_age" history n /\ 0 < n /\ In ("Z", z) (initial_values r) /\
  (forall p c, s1col p c -> from_column t (final_values r) "S1_" history n s p c) /\
  (* the metallicity is known, but not its history *)
  s "metallicity" = Some z /\ s "metallicity_history" = Some (Lst (repeat Nil n)) /\
  (forall k v, NoDup (map fst (final_values r)) -> In (("S1_" ++ k)%string, v) (final_values r) -> py_in "at_He_depletion" k = true -> s k = Some v) /\
  (if profile then s "profile" = Some (final_profile1 r) /\ s "profile_history" = Some (Lst (repeat Nil (n - 1) ++ [final_profile1 r])) else unknown n s "profile") /\
  exists before l, s "state_history" = Some (Lst l) /\ length l = n /\ (exists v, nth_error l (n - 1) = Some v /\ s "state" = Some v) /\
  (forall i, i < n -> exists v, nth_error l i = Some v /\ chk before i false = Ok v) /\
  (forall k, ~ In k ["state"; "state_history"; "profile"; "profile_history"] -> before k = s k).
Proof.
  intros chk r history profile s t E ET. unfold SingleStar_from_run in E. rewrite ET in E.
  apply bind_ok in E. destruct E as (s0 & _ & E). apply bind_ok in E. destruct E as (n & EN & E). apply bind_ok in E. destruct E as (s1 & E1 & E).
  apply bind_ok in E. destruct E as (z & EZ & E). apply bind_ok in E. destruct E as (s4 & E4 & E).
  match type of E with Ok ?x = _ => assert (W : s = x) by congruence end. clear E. set (s3 := fold_left (at_He_star "S1_") (final_values r) (setattr s1 "metallicity" z)) in *.
  destruct (star_states_spec _ _ _ _ _ E4) as (l & v & NP & L & ST & LAST & ES & EH & KS).
  assert (K3 : forall k, at_He k = false -> s3 k = setattr s1 "metallicity" z k) by (intros k K; apply at_He_star_keep; [now left|now right]).
  assert (KP : forall k, k <> "profile" -> k <> hist "profile" -> s k = s4 k).
  { intros k K1 K2. rewrite W. destruct profile; [|reflexivity]. rewrite !set_other; trivial. }
  assert (KB : forall p, In p BinaryModel.STARPROPERTIES -> p <> "profile" -> p <> "state" ->
     s p = setattr s1 "metallicity" z p /\ s (hist p) = setattr s1 "metallicity" z (hist p)).
  { intros p I N1 N2. destruct (star_no_He p I) as (H1 & H2).
    assert (P1 : forall q, p <> hist q) by (intros q; exact (plain_hist BinaryModel.STARPROPERTIES p q star_plain I)).
    assert (P2 : hist p <> "profile" /\ hist p <> "state") by (split; intros K; assert (Q := hist_in p); rewrite K in Q; discriminate).
    destruct P2 as (P2 & P3). assert (P4 : forall q, p <> q -> hist p <> hist q) by (intros q Q K; apply hist_inj in K; contradiction).
    split; (rewrite KP, KS, K3; [reflexivity|..]); auto. }
  destruct (load_all_spec _ _ _ _ _ _ _ _ _ star_nodup star_plain E1) as (A & _).
  exists n, z. split.
  { unfold steps. destruct history; [|congruence]. apply bind_ok in EN. destruct EN as (a & EA & EN). unfold column in EA.
    destruct (dget String.eqb t "star_age") as [a'|] eqn:ED; [|discriminate]. assert (a' = a) by congruence. subst a'. exists a. split; [now apply dget_pair|congruence]. }
  split; [exact NP|]. split. { unfold field in EZ. destruct (kget (initial_values r) "Z") eqn:EK; [|discriminate]. apply dget_pair. unfold kget in EK. congruence. }
  split; [|split; [|split; [|split; [|split]]]].
  - intros p c SC. destruct (s1col_spec p c SC) as (I & C & N). cbn [In] in N. destruct (A p I) as (w & hh & B1 & B2 & B3 & B4).
    destruct (KB p I) as (K1 & K2); [intros ->; tauto|intros ->; tauto|].
    rewrite set_other in K1 by (intros ->; tauto). rewrite set_other in K2 by (intros K; assert (Q := hist_in p); rewrite K in Q; discriminate).
    apply (load_column STAR_ATTRIBUTES_FROM_STAR_HISTORY_SINGLE t _ _ _ _ _ _ _ w hh C B1 B2); congruence.
  - destruct (KB "metallicity") as (K1 & _); [prop_in|discriminate|discriminate|]. rewrite K1. apply set_same.
  - destruct (KB "metallicity") as (_ & K2); [prop_in|discriminate|discriminate|]. change "metallicity_history" with (hist "metallicity"). rewrite K2, set_other by discriminate.
    destruct (A "metallicity") as (w & hh & B1 & B2 & B3 & B4); [prop_in|]. rewrite B4. cbn in B1. congruence.
  - intros k w ND I HE. rewrite KP, KS by (intros ->; discriminate HE). apply (at_He_star_set "S1_"); trivial. now left.
  - assert (U : unknown n s4 "profile").
    { destruct (A "profile") as (w & hh & B1 & B2 & B3 & B4); [prop_in|]. cbn in B1. unfold unknown. change ("profile" ++ "_history")%string with (hist "profile").
      rewrite !KS by discriminate. rewrite !K3 by reflexivity. rewrite !set_other by discriminate. rewrite B3, B4. split; congruence. }
    rewrite W. destruct profile; [|exact U]. split; [apply set_same|]. rewrite set_other by discriminate. apply set_same.
  - exists s3, l. rewrite !KP by discriminate. change "state_history" with (hist "state") at 1. split; [exact EH|]. split; [exact L|]. split; [exists v; now split|]. split; [exact ST|].
    intros k K. cbn [In] in K. rewrite KP by (intros ->; apply K; cbn; tauto). symmetry. apply KS; intros ->; apply K; cbn; tauto.
Qed.
Print Assumptions C158_star.
Example C158_case :
  exists s, SingleStar_from_run some_states (Run None (Some [("star_age", [num 0; num 5]); ("log_R", [num 1; num 2]); ("star_mass", [num 20; num 19])]) None
     [("S1_star_age", num 5); ("S1_log_R", num 2); ("S1_star_mass", num 19)] [("Z", num 0.0142)] (Obj 7) Nil) true true = Ok s /\
  s "mass" = Some (num 19) /\ s "mass_history" = Some (Lst [num 20; num 19]) /\ s "metallicity_history" = Some (Lst [Nil; Nil]) /\ s "profile_history" = Some (Lst [Nil; Obj 7]).
Proof.
  destruct (proj2 (C157_none some_states some_binary_states (Run None None None [] [] Nil Nil) true true eq_refl)) as (b0 & EB).
  destruct (parts_default b0 EB) as (s0 & ES & _). unfold SingleStar_from_run. rewrite ES. cbn [rbind]. clear ES EB b0.
  vm_compute. eexists. split; [reflexivity|]. repeat split.
Qed.
