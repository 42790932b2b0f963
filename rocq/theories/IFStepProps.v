(** C163 to C166: steps with an interpolator of a grid of MESA models. *)
From Coq Require Import Reals Lra String Bool List.
From Verif Require Import PyBase PyStr OrbitModel InspiralModel StarInitModel IFStepModel FromRunProofs.
From Verif Require BinaryModel SNNameModel BHModel.
Import ListNotations.
Open Scope R_scope.
Open Scope list_scope.
Open Scope string_scope.

(** ** Specification: where a property of a star comes from *)
Inductive origin := Kept | Cleared | Read (column : string).
Definition per_star (k : which) (s : string) : string := match k with One => "S1_" ++ s | Two => "S2_" ++ s end.
Definition numbered (k : which) (s : string) : string := match k with One => s ++ "_1" | Two => s ++ "_2" end.
Definition mass_column (k : which) : string := match k with One => "star_1_mass" | Two => "star_2_mass" end.
Definition origin_of (k : which) (key : string) : origin :=
  match key with
  | "metallicity" | "state" => Kept
  | "profile" | "avg_c_in_c_core" => Cleared
  | "mass" => Read (mass_column k)
  | "lg_mdot" => Read (numbered k "lg_mstar_dot")
  | "lg_system_mdot" | "lg_wind_mdot" => Read (numbered k key)
  | "spin" => Read (per_star k "spin_parameter")
  | _ => Read (per_star k key)
  end.
Definition origin_of_binary (key : string) : origin :=
  match key with
  | "separation" => Read "binary_separation"
  | "orbital_period" => Read "period_days"
  | _ => Read key
  end.

(** ** Loops over properties *)
Definition frame (f : attrs -> string -> result attrs) : Prop := forall o key o1, f o key = Ok o1 -> forall k, k <> key -> o1 k = o k.
Lemma each_spec : forall f l o o', NoDup l -> frame f -> each f l o = Ok o' ->
  (forall k, ~ In k l -> o' k = o k) /\
  (forall key, In key l -> exists om o1, (forall k, k = key \/ ~ In k l -> om k = o k) /\ f om key = Ok o1 /\ o' key = o1 key).
Proof.
  intros f l. induction l as [|a l IH]; intros o o' N F E.
  - cbn in E. assert (o' = o) by congruence. subst. split; [reflexivity|intros key []].
  - cbn [each] in E. apply bind_ok in E. destruct E as (o1 & E1 & E2). inversion N as [|? ? Na Nl]; subst.
    destruct (IH o1 o' Nl F E2) as [A B]. split.
    + intros k K. rewrite A by (intro; apply K; right; assumption). apply (F _ _ _ E1). intro; subst; apply K; left; reflexivity.
    + intros key [-> |I].
      * exists o, o1. split; [reflexivity|]. split; [exact E1|]. apply A, Na.
      * destruct (B key I) as (om & o2 & C & D & G). exists om, o2. split; [|split; assumption].
        intros k [-> |K].
        -- rewrite C by (left; reflexivity). apply (F _ _ _ E1). intro; subst; contradiction.
        -- rewrite C by (right; intro; apply K; right; assumption). apply (F _ _ _ E1). intro; subst; apply K; left; reflexivity.
Qed.
Lemma set_same : forall o k v, setattr o k v k = Some v.
Proof. intros. unfold setattr. rewrite String.eqb_refl. reflexivity. Qed.
Lemma set_other : forall o k v k', k' <> k -> setattr o k v k' = o k'.
Proof. intros. unfold setattr. destruct (String.eqb_spec k' k); congruence. Qed.
Ltac easy_frame := repeat match goal with
  | H : rbind ?x _ = Ok _ |- _ => let a := fresh "a" in let E := fresh "E" in apply bind_ok in H; destruct H as (a & E & H)
  | H : (if ?b then _ else _) = Ok _ |- _ => destruct b
  | H : match ?m with Absent => _ | Flag => _ | Column _ => _ end = Ok _ |- _ => destruct m
  | H : Ok ?x = Ok ?y |- _ => assert (x = y) by congruence; clear H; subst
  | |- setattr _ _ _ _ = _ => apply set_other; assumption
  | |- ?x = ?x => reflexivity
  end.
Lemma frame_normal : forall fv k, frame (set_normal fv k).
Proof. intros fv k o key o1 H x X. unfold set_normal in H. easy_frame. Qed.
Lemma frame_compact : forall fv k m, frame (set_compact fv k m).
Proof. intros fv k m o key o1 H x X. unfold set_compact in H. easy_frame. Qed.
Lemma frame_binary : forall fv, frame (set_binary fv).
Proof. intros fv o key o1 H x X. unfold set_binary in H. easy_frame. Qed.
Lemma frame_post : forall fv k u, frame (set_post fv k u).
Proof. intros fv k u o key o1 H x X. unfold set_post in H. easy_frame. Qed.
Lemma frame_sn : forall fv c k co, frame (set_sn fv c k co).
Proof. intros fv c k co o key o1 H x X. unfold set_sn in H. easy_frame. Qed.
(** Lists of names *)
Definition nodup (l : list string) : bool := (fix go l := match l with [] => true | x :: r => negb (existsb (String.eqb x) r) && go r end) l.
Lemma nodup_ok : forall l, nodup l = true -> NoDup l.
Proof.
  induction l as [|x l IH]; intro H; [constructor|]. cbn in H. apply andb_prop in H. destruct H as [A B]. constructor; [|apply IH; exact B].
  intro I. apply negb_true_iff in A. enough (existsb (String.eqb x) l = true) by congruence. apply existsb_exists. exists x. split; [exact I|apply String.eqb_refl].
Qed.
Lemma absent : forall x l, existsb (String.eqb x) l = false -> ~ In x l.
Proof. intros x l H I. enough (existsb (String.eqb x) l = true) by congruence. apply existsb_exists. exists x. split; [exact I|apply String.eqb_refl]. Qed.
Lemma apart : forall l l', forallb (fun x => negb (existsb (String.eqb x) l')) l = true -> forall x, In x l -> ~ In x l'.
Proof. intros l l' H x I. rewrite forallb_forall in H. apply absent. apply negb_true_iff, H, I. Qed.
Lemma star_nodup : NoDup BinaryModel.STARPROPERTIES. Proof. apply nodup_ok. reflexivity. Qed.
Lemma binary_nodup : NoDup BinaryModel.BINARYPROPERTIES. Proof. apply nodup_ok. reflexivity. Qed.
Lemma post_nodup : NoDup POST_PROCESSED. Proof. apply nodup_ok. reflexivity. Qed.
Lemma models_nodup : NoDup MODELS. Proof. apply nodup_ok. reflexivity. Qed.

(** ** Normal stars *)
Definition normal_value (fv : values) (k : which) (o : attrs) (key : string) : option val :=
  match origin_of k key with Kept => o key | Cleared => Some Nil | Read c => fv c end.
Lemma ok_inj : forall a b : attrs, Ok a = Ok b -> a = b.
Proof. congruence. Qed.
Ltac read_case H fv om := cbv -[setattr] in H;
    repeat match type of H with
    | context [fv ?c] => destruct (fv c) eqn:?; cbv -[setattr] in H
    | context [om ?c] => destruct (om c) eqn:?; cbv -[setattr] in H
    end; try discriminate H; apply ok_inj in H; subst.
Lemma normal_step : forall fv k om key o1, In key BinaryModel.STARPROPERTIES -> set_normal fv k om key = Ok o1 ->
  o1 key = normal_value fv k om key /\ (key <> "state" -> o1 key <> None).
Proof.
  intros fv k om key o1 I H. cbn [In BinaryModel.STARPROPERTIES] in I.
  repeat (destruct I as [I|I]; [subst key; destruct k; read_case H fv om; unfold normal_value; cbn [origin_of per_star numbered mass_column append];
    rewrite ?set_same; (split; [congruence|congruence])|]).
  destruct I.
Qed.
Lemma star_normal : forall fv k o o', set_star fv k false o = Ok o' ->
  (forall key, ~ In key BinaryModel.STARPROPERTIES -> o' key = o key) /\
  (forall key, In key BinaryModel.STARPROPERTIES -> o' key = normal_value fv k o key /\ (key <> "state" -> o' key <> None)).
Proof.
  intros fv k o o' H. unfold set_star in H. apply bind_ok in H. destruct H as (m & _ & H).
  destruct (each_spec _ _ _ _ star_nodup (frame_normal fv k) H) as [A B]. split; [exact A|].
  intros key I. destruct (B key I) as (om & o1 & C & D & E). destruct (normal_step fv k om key o1 I D) as [F G].
  rewrite E. split; [|exact G]. rewrite F. unfold normal_value. destruct (origin_of k key); try reflexivity. apply C. left. reflexivity.
Qed.

(** ** Compact objects: what is set; anything else is kept *)
Definition compact_value (fv : values) (k : which) (o : attrs) (key : string) (v : option val) : Prop :=
  match key with
  | "mass" => v = fv (mass_column k) /\ v <> None
  | "lg_mdot" => v = fv (numbered k "lg_mstar_dot") /\ v <> None
  | "lg_system_mdot" | "lg_wind_mdot" => v = fv (numbered k key) /\ v <> None
  | "profile" | "avg_c_in_c_core" => v = Some Nil
  | "spin" => exists s m m' a, o "spin" = Some s /\ o "mass" = Some m /\ fv (mass_column k) = Some m' /\ new_spin s m m' = Ok a /\ v = Some a
  | "log_R" => exists m' st r, fv (mass_column k) = Some m' /\ infer_CO m' [] = Ok st /\ CO_log_R m' st = Ok r /\ v = Some r
  | _ => v = o key
  end.
Ltac other_case H :=
  repeat match type of H with
  | rbind ?x _ = Ok _ => let a := fresh "a" in let E := fresh "E" in apply bind_ok in H; destruct H as (a & E & H)
  end.
Lemma compact_step : forall fv k m om key o1, In key BinaryModel.STARPROPERTIES -> set_compact fv k m om key = Ok o1 ->
  key <> "spin" -> key <> "log_R" -> compact_value fv k om key (o1 key).
Proof.
  intros fv k m om key o1 I H N1 N2. cbn [In BinaryModel.STARPROPERTIES] in I.
  repeat (destruct I as [I|I]; [subst key; (exfalso; congruence) || (destruct k; read_case H fv om; cbn [compact_value per_star numbered mass_column append];
    rewrite ?set_same; first [reflexivity | congruence | split; congruence])|]).
  destruct I.
Qed.
Lemma col_some : forall fv c v, col fv c = Ok v -> fv c = Some v.
Proof. intros fv c v. unfold col. destruct (fv c); congruence. Qed.
Lemma get_some : forall o c v, get o c = Ok v -> o c = Some v.
Proof. intros o c v. unfold get. destruct (o c); congruence. Qed.
Lemma star_mass_column : forall k, star_mass k = mass_column k.
Proof. intros []; reflexivity. Qed.
Lemma compact_spin : forall fv k m om o1, set_compact fv k m om "spin" = Ok o1 ->
  exists s m' a, om "spin" = Some s /\ fv (mass_column k) = Some m' /\ new_spin s m m' = Ok a /\ o1 "spin" = Some a.
Proof.
  intros fv k m om o1 H. change (rbind (get om "spin") (fun s => rbind (col fv (star_mass k)) (fun v => rbind (new_spin s m v) (fun a => Ok (setattr om "spin" a)))) = Ok o1) in H.
  other_case H. apply ok_inj in H. subst o1. rewrite star_mass_column in E0. exists a, a0, a1. repeat split.
  - apply get_some, E.
  - apply col_some, E0.
  - exact E1.
Qed.
Lemma compact_radius : forall fv k m om o1, set_compact fv k m om "log_R" = Ok o1 ->
  exists m' st r, fv (mass_column k) = Some m' /\ infer_CO m' [] = Ok st /\ CO_log_R m' st = Ok r /\ o1 "log_R" = Some r.
Proof.
  intros fv k m om o1 H. change (rbind (col fv (star_mass k)) (fun v => rbind (infer_CO v []) (fun st => rbind (CO_log_R v st) (fun r => Ok (setattr om "log_R" r)))) = Ok o1) in H.
  other_case H. apply ok_inj in H. subst o1. rewrite star_mass_column in E. exists a, a0, a1. repeat split; [apply col_some, E|exact E0|exact E1].
Qed.
Lemma star_compact : forall fv k o o', set_star fv k true o = Ok o' ->
  (forall key, ~ In key BinaryModel.STARPROPERTIES -> o' key = o key) /\
  (forall key, In key BinaryModel.STARPROPERTIES -> compact_value fv k o key (o' key)).
Proof.
  intros fv k o o' H. unfold set_star in H. apply bind_ok in H. destruct H as (m & M & H). apply get_some in M.
  destruct (each_spec _ _ _ _ star_nodup (frame_compact fv k m) H) as [A B]. split; [exact A|].
  intros key I. destruct (B key I) as (om & o1 & C & D & E). rewrite E. pose proof (C key (or_introl eq_refl)) as C0.
  destruct (string_dec key "spin") as [-> |N1].
  { destruct (compact_spin _ _ _ _ _ D) as (s & m' & a & P & Q & R & S). exists s, m, m', a. rewrite <- C0. auto. }
  destruct (string_dec key "log_R") as [-> |N2].
  { exact (compact_radius _ _ _ _ _ D). }
  pose proof (compact_step fv k m om key o1 I D N1 N2) as G. clear - G C0 N1 N2 I.
  cbn [In BinaryModel.STARPROPERTIES] in I.
  repeat (destruct I as [I|I]; [subst key; cbn [compact_value] in *; congruence || exact G|]). destruct I.
Qed.

(** ** The binary *)
Definition binary_value (fv : values) (o : attrs) (key : string) (v : option val) : Prop :=
  match key with
  | "state" | "event" | "mass_transfer_case" => v = o key
  | "time" => exists now dt t, o "time" = Some now /\ fv "age" = Some dt /\ plus now dt = Ok t /\ v = Some t
  | "eccentricity" | "V_sys" => exists h x, o (key ++ "_history") = Some (Lst (h ++ [x])%list) /\ v = Some x
  | "nearest_neighbour_distance" => v = Some (Lst [nan; nan; nan])
  | "separation" => v = fv "binary_separation" /\ v <> None
  | "orbital_period" => v = fv "period_days" /\ v <> None
  | _ => v = fv key /\ v <> None
  end.
Lemma last_of_some : forall v x, last_of v = Ok x -> exists h, v = Lst (h ++ [x])%list.
Proof.
  intros v x. destruct v; try discriminate. unfold last_of. destruct (rev l) as [|y r] eqn:E; [discriminate|]. intro H.
  assert (y = x) by congruence. subst. exists (rev r). f_equal. rewrite <- (rev_involutive l), E. reflexivity.
Qed.
Lemma binary_step : forall fv om key o1, In key BinaryModel.BINARYPROPERTIES -> set_binary fv om key = Ok o1 ->
  key <> "time" -> key <> "eccentricity" -> key <> "V_sys" -> binary_value fv om key (o1 key).
Proof.
  intros fv om key o1 I H N1 N2 N3. cbn [In BinaryModel.BINARYPROPERTIES] in I.
  repeat (destruct I as [I|I]; [subst key; (exfalso; congruence) || (read_case H fv om; cbn [binary_value];
    rewrite ?set_same; first [reflexivity | congruence | split; congruence])|]).
  destruct I.
Qed.
Lemma binary_kept : forall fv key om o1, In key ["eccentricity"; "V_sys"] -> set_binary fv om key = Ok o1 ->
  exists h x, om (key ++ "_history") = Some (Lst (h ++ [x])%list) /\ o1 key = Some x.
Proof.
  intros fv key om o1 I H.
  assert (Q : rbind (get om (key ++ "_history")) (fun h => rbind (last_of h) (fun v => Ok (setattr om key v))) = Ok o1).
  { destruct I as [<- |[<- |[]]]; exact H. }
  other_case Q. apply ok_inj in Q. subst o1. apply get_some in E. destruct (last_of_some _ _ E0) as (h & ->). exists h, a0. split; [exact E|apply set_same].
Qed.
Lemma binary_all : forall fv o o', each (set_binary fv) BinaryModel.BINARYPROPERTIES o = Ok o' ->
  (forall key, ~ In key BinaryModel.BINARYPROPERTIES -> o' key = o key) /\
  (forall key, In key BinaryModel.BINARYPROPERTIES -> binary_value fv o key (o' key)).
Proof.
  intros fv o o' H. destruct (each_spec _ _ _ _ binary_nodup (frame_binary fv) H) as [A B]. split; [exact A|].
  intros key I. destruct (B key I) as (om & o1 & C & D & E). rewrite E. pose proof (C key (or_introl eq_refl)) as C0.
  destruct (string_dec key "time") as [-> |N1].
  { change (rbind (get om "time") (fun now => rbind (col fv "age") (fun dt => rbind (plus now dt) (fun t => Ok (setattr om "time" t)))) = Ok o1) in D.
    other_case D. apply ok_inj in D. subst o1. apply get_some in E0. apply col_some in E1. exists a, a0, a1. rewrite <- C0. auto using set_same. }
  destruct (string_dec key "eccentricity") as [-> |N2].
  { destruct (binary_kept fv "eccentricity" om o1 (or_introl eq_refl) D) as (h & x & P & Q). exists h, x. split; [|exact Q].
    rewrite <- C; [exact P|]. right. apply absent. reflexivity. }
  destruct (string_dec key "V_sys") as [-> |N3].
  { destruct (binary_kept fv "V_sys" om o1 (or_intror (or_introl eq_refl)) D) as (h & x & P & Q). exists h, x. split; [|exact Q].
    rewrite <- C; [exact P|]. right. apply absent. reflexivity. }
  pose proof (binary_step fv om key o1 I D N1 N2 N3) as G. clear - G C0 N1 N2 N3 I.
  cbn [In BinaryModel.BINARYPROPERTIES] in I.
  repeat (destruct I as [I|I]; [subst key; cbn [binary_value] in *; congruence || exact G|]). destruct I.
Qed.

(** ** The whole update *)
Definition star_of (k : which) (x : StarInitModel.binary) : attrs := match k with One => b_star1 x | Two => b_star2 x end.
Definition pick {A} (k : which) (x y : A) : A := match k with One => x | Two => y end.
Definition other (k : which) : which := match k with One => Two | Two => One end.
(** The course of the update for one star: [s] has the new values, [t] the state, [u] the rate, [v] the cores, [w] the supernovae *)
Record course (p : physics) (fv : values) (c : class) (b : attrs) (ic : string) (k : which) (co : bool) (x0 w : attrs) : Type := Course {
  cs : attrs; ct : attrs; cu : attrs; cv : attrs; cst : string;
  c1 : set_star fv k co x0 = Ok cs;
  c2 : star_state p cs co = Ok cst;
  c3 : ct = if String.eqb ic "initial_MT" then cs else setattr cs "state" (Txt cst);
  c4 : b "state" = Some (Txt "initial_RLOF") /\ cu = ct /\ cv = ct /\ w = ct \/
       b "state" <> Some (Txt "initial_RLOF") /\
       (if co then exists don, accretion p fv b ct don k = Ok cu else cu = ct) /\
       (if co then cv = cu else each (set_post fv k (String.eqb ic "unstable_MT")) POST_PROCESSED cu = Ok cv) /\
       (if String.eqb ic "unstable_MT" then w = cv else each (set_sn fv c k co) MODELS cv = Ok w) }.
Arguments Course {p fv c b ic k co x0 w}.
Lemma is_txt_true : forall v t, is_txt v t = true -> v = Txt t.
Proof. intros [] t H; try discriminate. cbn in H. apply String.eqb_eq in H. congruence. Qed.
Lemma is_txt_false : forall v t, is_txt v t = false -> v <> Txt t.
Proof. intros v t H E. subst. cbn in H. rewrite String.eqb_refl in H. discriminate. Qed.
Lemma state_of_b : forall (b : attrs) bs ev mc, setattr (setattr (setattr b "state" bs) "event" ev) "mass_transfer_case" mc "state" = Some bs.
Proof. reflexivity. Qed.
Lemma courses : forall p grid fv c co1 co2 x y, co1 && co2 = false -> initial_final_interpolation p grid fv c co1 co2 x = Ok y ->
  exists b ic mt bs ev mc,
    each (set_binary fv) BinaryModel.BINARYPROPERTIES (b_attrs x) = Ok b /\ c "interpolation_class" = Some ic /\ c "mt_history" = Some mt /\
    b_attrs y = setattr (setattr (setattr (setattr (setattr b ("interp_class_" ++ grid) (Txt ic)) ("mt_history_" ++ grid) (Txt mt)) "state" bs) "event" ev) "mass_transfer_case" mc /\
    exists d1 : course p fv c (b_attrs y) ic One co1 (b_star1 x) (b_star1 y), exists d2 : course p fv c (b_attrs y) ic Two co2 (b_star2 x) (b_star2 y),
      case_of p (setattr (setattr b ("interp_class_" ++ grid) (Txt ic)) ("mt_history_" ++ grid) (Txt mt)) (ct _ _ _ _ _ _ _ _ _ d1) (ct _ _ _ _ _ _ _ _ _ d2) ic = Ok (bs, ev, mc).
Proof.
  intros p grid fv c co1 co2 x y NB H. unfold initial_final_interpolation in H.
  apply bind_ok in H. destruct H as (m1 & M1 & H). apply bind_ok in H. destruct H as (m2 & M2 & H).
  apply bind_ok in H. destruct H as (b & B & H). apply bind_ok in H. destruct H as (s1 & S1 & H). apply bind_ok in H. destruct H as (s2 & S2 & H).
  apply bind_ok in H. destruct H as (ic & IC & H). cbv zeta in H. apply bind_ok in H. destruct H as (mt & MT & H).
  apply bind_ok in H. destruct H as (st1 & ST1 & H). apply bind_ok in H. destruct H as (st2 & ST2 & H). apply bind_ok in H.
  destruct H as ([[bs ev] mc] & SEM & H).
  assert (CI : c "interpolation_class" = Some ic) by (unfold class_of in IC; destruct (c "interpolation_class"); congruence).
  assert (CM : c "mt_history" = Some mt) by (unfold class_of in MT; destruct (c "mt_history"); congruence).
  set (bb := setattr (setattr b ("interp_class_" ++ grid) (Txt ic)) ("mt_history_" ++ grid) (Txt mt)) in *.
  set (t1 := if String.eqb ic "initial_MT" then s1 else setattr s1 "state" (Txt st1)) in *.
  set (t2 := if String.eqb ic "initial_MT" then s2 else setattr s2 "state" (Txt st2)) in *.
  exists b, ic, mt, bs, ev, mc. split; [exact B|]. split; [exact CI|]. split; [exact CM|]. fold bb.
  destruct (is_txt bs "initial_RLOF") eqn:RL.
  - apply is_txt_true in RL. assert (Y : y = Bin (setattr (setattr (setattr bb "state" bs) "event" ev) "mass_transfer_case" mc) t1 t2) by congruence.
    subst y. cbn [b_attrs b_star1 b_star2]. split; [reflexivity|].
    assert (Q : setattr (setattr (setattr bb "state" bs) "event" ev) "mass_transfer_case" mc "state" = Some (Txt "initial_RLOF")) by (rewrite state_of_b; congruence).
    exists (Course s1 t1 t1 t1 st1 S1 ST1 eq_refl (or_introl (conj Q (conj eq_refl (conj eq_refl eq_refl))))).
    exists (Course s2 t2 t2 t2 st2 S2 ST2 eq_refl (or_introl (conj Q (conj eq_refl (conj eq_refl eq_refl))))). exact SEM.
  - apply is_txt_false in RL. set (bf := setattr (setattr (setattr bb "state" bs) "event" ev) "mass_transfer_case" mc) in *.
    apply bind_ok in H. destruct H as ([u1 u2] & U & H). apply bind_ok in H. destruct H as (v1 & V1 & H). apply bind_ok in H. destruct H as (v2 & V2 & H).
    cbn [fst snd] in V1, V2.
    assert (Q : bf "state" <> Some (Txt "initial_RLOF")) by (unfold bf; rewrite state_of_b; congruence).
    assert (U' : (if co1 then exists don, accretion p fv bf t1 don One = Ok u1 else u1 = t1) /\ (if co2 then exists don, accretion p fv bf t2 don Two = Ok u2 else u2 = t2)).
    { destruct co2.
      - destruct co1; [discriminate NB|]. apply bind_ok in U. destruct U as (a & A & U). split; [congruence|]. exists t1. congruence.
      - destruct co1.
        + apply bind_ok in U. destruct U as (a & A & U). split; [|congruence]. exists t2. congruence.
        + split; congruence. }
    destruct U' as [U1 U2].
    assert (V1' : if co1 then v1 = u1 else each (set_post fv One (String.eqb ic "unstable_MT")) POST_PROCESSED u1 = Ok v1) by (destruct co1; [congruence|exact V1]).
    assert (V2' : if co2 then v2 = u2 else each (set_post fv Two (String.eqb ic "unstable_MT")) POST_PROCESSED u2 = Ok v2) by (destruct co2; [congruence|exact V2]).
    assert (W : exists w1 w2, y = Bin bf w1 w2 /\ (if String.eqb ic "unstable_MT" then w1 = v1 else each (set_sn fv c One co1) MODELS v1 = Ok w1) /\
                (if String.eqb ic "unstable_MT" then w2 = v2 else each (set_sn fv c Two co2) MODELS v2 = Ok w2)).
    { destruct (String.eqb ic "unstable_MT").
      - exists v1, v2. repeat split. congruence.
      - apply bind_ok in H. destruct H as (w1 & W1 & H). apply bind_ok in H. destruct H as (w2 & W2 & H). exists w1, w2. repeat split; congruence. }
    destruct W as (w1 & w2 & -> & W1 & W2). cbn [b_attrs b_star1 b_star2]. split; [reflexivity|].
    exists (Course s1 t1 u1 v1 st1 S1 ST1 eq_refl (or_intror (conj Q (conj U1 (conj V1' W1))))).
    exists (Course s2 t2 u2 v2 st2 S2 ST2 eq_refl (or_intror (conj Q (conj U2 (conj V2' W2))))). exact SEM.
Qed.
Lemma accretion_set : forall p fv b acc don k u, accretion p fv b acc don k = Ok u ->
  exists lg c e, fv (numbered k "lg_mstar_dot") = Some (Num lg) /\ captured p b acc don = Ok c /\ limit p b acc don = Ok e /\ u = setattr acc "lg_mdot" (log_rate (Num lg) c e).
Proof.
  intros p fv b acc don k u H. unfold accretion in H. other_case H. apply ok_inj in H. apply col_some in E.
  destruct a; try discriminate E0. exists x, a1, a2. destruct k; auto.
Qed.
(** The names which are set at the end are none of the properties *)
Lemma late_keys : forall key, In key BinaryModel.STARPROPERTIES -> ~ In key POST_PROCESSED /\ ~ In key MODELS.
Proof.
  intros key I. split; [apply (apart BinaryModel.STARPROPERTIES POST_PROCESSED); [reflexivity|exact I]|apply (apart BinaryModel.STARPROPERTIES MODELS); [reflexivity|exact I]].
Qed.
Lemma course_frame : forall p fv c b ic k co x0 w (d : course p fv c b ic k co x0 w) key, ~ In key POST_PROCESSED -> ~ In key MODELS ->
  w key = cu _ _ _ _ _ _ _ _ _ d key.
Proof.
  intros p fv c b ic k co x0 w d key N1 N2. destruct d as [s t u v st D1 D2 D3 D4]. cbn [cu]. destruct D4 as [(_ & -> & -> & ->)|(_ & _ & P & S)]; [reflexivity|].
  assert (V : v key = u key).
  { destruct co; [congruence|]. exact (proj1 (each_spec _ _ _ _ post_nodup (frame_post fv k _) P) key N1). }
  rewrite <- V. destruct (String.eqb ic "unstable_MT"); [congruence|]. exact (proj1 (each_spec _ _ _ _ models_nodup (frame_sn fv c k co) S) key N2).
Qed.
Lemma course_rate : forall p fv c b ic k co x0 w (d : course p fv c b ic k co x0 w) key, key <> "lg_mdot" \/ co = false -> key <> "state" ->
  cu _ _ _ _ _ _ _ _ _ d key = cs _ _ _ _ _ _ _ _ _ d key.
Proof.
  intros p fv c b ic k co x0 w d key N1 N2. destruct d as [s t u v st D1 D2 D3 D4]. cbn [cu cs].
  assert (T : t key = s key). { subst t. destruct (String.eqb ic "initial_MT"); [reflexivity|]. apply set_other. exact N2. }
  rewrite <- T. destruct D4 as [(_ & -> & _)|(_ & U & _)]; [reflexivity|]. destruct co; [|congruence].
  destruct U as (don & U). destruct (accretion_set _ _ _ _ _ _ _ U) as (lg & cc & e & _ & _ & _ & ->). apply set_other. destruct N1; congruence.
Qed.
Section Update.
  Variables (p : physics) (grid : string) (fv : values) (c : class) (co1 co2 : bool) (x y : StarInitModel.binary).
  Hypothesis NB : co1 && co2 = false.
  Hypothesis H : initial_final_interpolation p grid fv c co1 co2 x = Ok y.
  Lemma one_course : forall k, exists ic, c "interpolation_class" = Some ic /\ inhabited (course p fv c (b_attrs y) ic k (pick k co1 co2) (star_of k x) (star_of k y)).
  Proof using NB H.
    intro k. destruct (courses p grid fv c co1 co2 x y NB H) as (b & ic & mt & bs & ev & mc & _ & E & _ & _ & d1 & d2 & _).
    exists ic. split; [exact E|]. destruct k; constructor; assumption.
  Qed.
  (** Stars which are no compact objects take each property from its column. *)
  Theorem C163_star : forall k key, pick k co1 co2 = false -> In key BinaryModel.STARPROPERTIES -> key <> "state" ->
    star_of k y key = match origin_of k key with Kept => star_of k x key | Cleared => Some Nil | Read column => fv column end /\ star_of k y key <> None.
  Proof using NB H.
    intros k key C I N. destruct (one_course k) as (ic & _ & [d]). destruct (late_keys key I) as [P Q].
    rewrite (course_frame _ _ _ _ _ _ _ _ _ d key P Q), (course_rate _ _ _ _ _ _ _ _ _ d key (or_intror C) N).
    destruct d as [s t u v st D1 D2 D3 D4]. cbn [cs]. rewrite C in D1. destruct (proj2 (star_normal _ _ _ _ D1) key I) as [A B]. split; [exact A|apply B, N].
  Qed.
  (** Compact objects *)
  Theorem C164_compact : forall k key, pick k co1 co2 = true -> In key BinaryModel.STARPROPERTIES -> key <> "state" -> key <> "lg_mdot" ->
    compact_value fv k (star_of k x) key (star_of k y key).
  Proof using NB H.
    intros k key C I N N'. destruct (one_course k) as (ic & _ & [d]). destruct (late_keys key I) as [P Q].
    rewrite (course_frame _ _ _ _ _ _ _ _ _ d key P Q), (course_rate _ _ _ _ _ _ _ _ _ d key (or_introl N') N).
    destruct d as [s t u v st D1 D2 D3 D4]. cbn [cs]. rewrite C in D1. apply (proj2 (star_compact _ _ _ _ D1) key I).
  Qed.
  (** The rate of a compact object: that of the grid and what is captured, up to the limit. *)
  Theorem C164_rate : forall k, pick k co1 co2 = true ->
    (b_attrs y "state" = Some (Txt "initial_RLOF") /\ star_of k y "lg_mdot" = fv (numbered k "lg_mstar_dot")) \/
    (b_attrs y "state" <> Some (Txt "initial_RLOF") /\ exists lg acc don cap edd, fv (numbered k "lg_mstar_dot") = Some (Num lg) /\
      captured p (b_attrs y) acc don = Ok cap /\ limit p (b_attrs y) acc don = Ok edd /\
      match lg with
      | None => star_of k y "lg_mdot" = Some nan
      | Some g => exists r, star_of k y "lg_mdot" = Some (num r) /\ (0 <= cap -> 0 < edd -> Rpower 10 r = Rmin (Rpower 10 g + cap) edd)
      end).
  Proof using NB H.
    intros k C. destruct (one_course k) as (ic & _ & [d]).
    rewrite (course_frame _ _ _ _ _ _ _ _ _ d "lg_mdot") by (apply absent; reflexivity).
    destruct d as [s t u v st D1 D2 D3 D4]. cbn [cu]. destruct D4 as [(B & -> & _)|(B & U & _)].
    - left. split; [exact B|]. rewrite C in D1. pose proof (proj2 (star_compact _ _ _ _ D1) "lg_mdot") as G. cbn [compact_value] in G.
      assert (E : t "lg_mdot" = s "lg_mdot") by (subst t; destruct (String.eqb ic "initial_MT"); reflexivity). rewrite E. apply G. cbn. tauto.
    - right. split; [exact B|]. rewrite C in U. destruct U as (don & U). destruct (accretion_set _ _ _ _ _ _ _ U) as (lg & cc & e & F & G & L & ->).
      exists lg, t, don, cc, e. repeat (split; [assumption|]). rewrite set_same. destruct lg as [g|]; [|reflexivity].
      eexists. split; [reflexivity|]. intros P Q. unfold BHModel.recorded_rate.
      assert (T : forall z, 0 < z -> Rpower 10 (BHModel.log10 z) = z).
      { intros z Z. unfold BHModel.log10, Rpower. replace (ln z / ln 10 * ln 10) with (ln z); [apply exp_ln, Z|]. field.
        assert (0 < ln 10) by (rewrite <- ln_1; apply ln_increasing; lra). lra. }
      assert (Z : 0 < Rpower 10 g + cc) by (pose proof (exp_pos (g * ln 10)); unfold Rpower; lra).
      rewrite (T _ Z). unfold Rmin. destruct (Rlt_dec e (Rpower 10 g + cc)), (Rle_dec (Rpower 10 g + cc) e); try lra; rewrite T; lra.
  Qed.
  (** States of stars *)
  Theorem C163_state : forall k, exists ic, c "interpolation_class" = Some ic /\
    (if String.eqb ic "initial_MT" then star_of k y "state" = star_of k x "state"
     else exists s st, star_of k y "state" = Some (Txt st) /\ star_state p s (pick k co1 co2) = Ok st /\
       forall key, In key BinaryModel.STARPROPERTIES -> key <> "state" -> key <> "lg_mdot" -> s key = star_of k y key).
  Proof using NB H.
    intro k. destruct (one_course k) as (ic & E & [d]). exists ic. split; [exact E|].
    pose proof (course_frame _ _ _ _ _ _ _ _ _ d) as F. pose proof (course_rate _ _ _ _ _ _ _ _ _ d) as G.
    rewrite (F "state") by (apply absent; reflexivity). destruct d as [s t u v st D1 D2 D3 D4]. cbn [cu cs] in *.
    assert (T : u "state" = t "state").
    { destruct D4 as [(_ & -> & _)|(_ & U & _)]; [reflexivity|]. destruct (pick k co1 co2); [|congruence].
      destruct U as (don & U). destruct (accretion_set _ _ _ _ _ _ _ U) as (lg & cc & e & _ & _ & _ & ->). reflexivity. }
    rewrite T. destruct (String.eqb ic "initial_MT") eqn:Q.
    - subst t. destruct (pick k co1 co2) eqn:C.
      + apply (proj2 (star_compact _ _ _ _ D1) "state"). cbn. tauto.
      + apply (proj2 (star_normal _ _ _ _ D1) "state"). cbn. tauto.
    - exists s, st. split; [subst t; reflexivity|]. split; [exact D2|]. intros key I N N'. destruct (late_keys key I) as [A B].
      rewrite (F key A B), (G key (or_introl N') N). reflexivity.
  Qed.
  (** All else is left alone. *)
  Theorem C163_kept : forall k key, ~ In key BinaryModel.STARPROPERTIES -> ~ In key POST_PROCESSED -> ~ In key MODELS -> star_of k y key = star_of k x key.
  Proof using NB H.
    intros k key N1 N2 N3. destruct (one_course k) as (ic & _ & [d]).
    assert (A : key <> "state") by (intros ->; apply N1; cbn; tauto). assert (B : key <> "lg_mdot") by (intros ->; apply N1; cbn; tauto).
    rewrite (course_frame _ _ _ _ _ _ _ _ _ d key N2 N3), (course_rate _ _ _ _ _ _ _ _ _ d key (or_introl B) A).
    destruct d as [s t u v st D1 D2 D3 D4]. cbn [cs]. destruct (pick k co1 co2).
    - apply (proj1 (star_compact _ _ _ _ D1) key N1).
    - apply (proj1 (star_normal _ _ _ _ D1) key N1).
  Qed.
  (** The binary *)
  Theorem C163_binary : exists ic mt bs ev mc b s1 s2, c "interpolation_class" = Some ic /\ c "mt_history" = Some mt /\ case_of p b s1 s2 ic = Ok (bs, ev, mc) /\
    b_attrs y "state" = Some bs /\ b_attrs y "event" = Some ev /\ b_attrs y "mass_transfer_case" = Some mc /\
    b_attrs y ("interp_class_" ++ grid) = Some (Txt ic) /\ b_attrs y ("mt_history_" ++ grid) = Some (Txt mt) /\
    (forall key, In key BinaryModel.BINARYPROPERTIES -> ~ In key ["state"; "event"; "mass_transfer_case"] -> binary_value fv (b_attrs x) key (b_attrs y key)) /\
    (forall key, ~ In key BinaryModel.BINARYPROPERTIES -> key <> "interp_class_" ++ grid -> key <> "mt_history_" ++ grid -> b_attrs y key = b_attrs x key) /\
    (forall key, In key BinaryModel.BINARYPROPERTIES -> ~ In key ["state"; "event"; "mass_transfer_case"] -> b key = b_attrs y key) /\
    (forall k key, In key BinaryModel.STARPROPERTIES -> key <> "lg_mdot" -> pick k s1 s2 key = star_of k y key).
  Proof using NB H.
    destruct (courses p grid fv c co1 co2 x y NB H) as (b & ic & mt & bs & ev & mc & B & E & M & Y & d1 & d2 & SEM).
    exists ic, mt, bs, ev, mc. do 3 eexists. split; [exact E|]. split; [exact M|]. split; [exact SEM|].
    destruct (binary_all _ _ _ B) as [K1 K2].
    assert (U : forall key, ~ In key ["state"; "event"; "mass_transfer_case"] -> b_attrs y key = setattr (setattr b ("interp_class_" ++ grid) (Txt ic)) ("mt_history_" ++ grid) (Txt mt) key).
    { intros key N. rewrite Y. rewrite 3!set_other; [reflexivity| | |]; intros ->; apply N; cbn; tauto. }
    assert (V : forall key, In key BinaryModel.BINARYPROPERTIES -> setattr (setattr b ("interp_class_" ++ grid) (Txt ic)) ("mt_history_" ++ grid) (Txt mt) key = b key).
    { intros key I. rewrite !set_other; [reflexivity| |]; intros ->; cbn in I; repeat (destruct I as [I|I]; [discriminate I|]); destruct I. }
    assert (NI : ~ In ("interp_class_" ++ grid) ["state"; "event"; "mass_transfer_case"]) by (intros [I|[I|[I|[]]]]; discriminate I).
    assert (NM : ~ In ("mt_history_" ++ grid) ["state"; "event"; "mass_transfer_case"]) by (intros [I|[I|[I|[]]]]; discriminate I).
    split; [rewrite Y; reflexivity|]. split; [rewrite Y; reflexivity|]. split; [rewrite Y; reflexivity|].
    split; [rewrite (U _ NI), set_other by discriminate; apply set_same|]. split; [rewrite (U _ NM); apply set_same|].
    split; [intros key I N; rewrite (U key N), (V key I); apply K2, I|]. split; [|split].
    - intros key N1 N2 N3. rewrite U, !set_other by (assumption || (intro I; apply N1; cbn in *; tauto)). apply K1, N1.
    - intros key I N. symmetry. apply U, N.
    - intros k key I N. destruct (late_keys key I) as [A C].
      assert (G : forall k co x0 w (d : course p fv c (b_attrs y) ic k co x0 w), ct _ _ _ _ _ _ _ _ _ d key = w key).
      { clear - A C N. intros k co x0 w d. rewrite (course_frame _ _ _ _ _ _ _ _ _ d key A C). destruct d as [s t u v st D1 D2 D3 D4]. cbn [ct cu].
        destruct D4 as [(_ & -> & _)|(_ & U & _)]; [reflexivity|]. destruct co; [|congruence].
        destruct U as (don & U). destruct (accretion_set _ _ _ _ _ _ _ U) as (lg & cc & e & _ & _ & _ & ->). symmetry. apply set_other, N. }
      destruct k; apply G.
  Qed.
End Update.
Print Assumptions C163_star.
Print Assumptions C163_state.
Print Assumptions C163_kept.
Print Assumptions C163_binary.
Print Assumptions C164_compact.
Print Assumptions C164_rate.
