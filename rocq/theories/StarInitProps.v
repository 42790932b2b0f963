(** New stars and binaries (C155, C156). *)
From Coq Require Import Reals String Bool List Lra Lia.
From Verif Require Import PyBase PyStr RealLemmas OrbitModel OrbitProps InspiralModel StarInitModel StarInitProofs.
From Verif Require BinaryModel SNNameModel.
Import ListNotations.
Open Scope string_scope.
Open Scope R_scope.
Open Scope list_scope.

(** ** Specification *)
(** No keyword is the name of the history of a property. *)
Definition usual (props : list string) (kw : kwargs) : Prop := forall q, In q props -> kget kw (q ++ "_history")%string = None.
(** What the constructor assumes for a star of a given surface and burning: hydrogen and helium in the centre, log radius, and whether all of it
    is core; [Y] and [Z] are the abundances on the zero-age main sequence. *)
Inductive burning := Core_H | Shell_H | Core_He | NoBurning | He_gone | C_gone.
Definition burning_name (b : burning) : string :=
  match b with Core_H => "Core_H_burning" | Shell_H => "Shell_H_burning" | Core_He => "Core_He_burning" | NoBurning => "non_burning"
  | He_gone => "Core_He_depleted" | C_gone => "Core_C_depleted" end.
Inductive surface := Rich | Stripped | Accreted.
Definition surface_name (s : surface) : string := match s with Rich => "H-rich" | Stripped => "stripped_He" | Accreted => "accreted_He" end.
Definition state_name (s : surface) (b : burning) : string := (surface_name s ++ "_" ++ burning_name b)%string.
Definition assumed (s : surface) (b : burning) (Y Z : R) : R * R * R * bool :=
  match b, s with
  | Core_H, _ => (1 - Y - Z, Y, 0, false)
  | (Shell_H | NoBurning), Stripped => (0.000001, 0.000001, 0, true)
  | (Shell_H | NoBurning), _ => (0.01, 0.99 - Z, 0, false)
  | Core_He, Stripped => (0.000001, 0.999999 - Z, 0, true)
  | Core_He, _ => (0.000001, 0.999999 - Z, 4, true)
  | (He_gone | C_gone), _ => (0.000001, 0.000001, 0, true)
  end.
(** The type of a compact object by its mass; [fresh] if it has some hydrogen, helium or carbon left *)
Inductive remnant (m : R) (fresh : Prop) : string -> Prop :=
| is_WD : m < 1.1 \/ fresh /\ m <= 1.46 -> remnant m fresh "WD"
| is_NS : 1.1 <= m <= 2.5 -> (fresh -> 1.46 < m) -> remnant m fresh "NS"
| is_BH : 2.5 < m -> remnant m fresh "BH".
Definition leftovers (kw : kwargs) : Prop :=
  exists k x, In k ["surface_h1"; "center_h1"; "center_he4"; "center_c12"] /\ kget kw k = Some (num x) /\ 0 < x.
Definition numeric (kw : kwargs) (k : string) : Prop := kget kw k = None \/ kget kw k = Some Nil \/ exists x, kget kw k = Some (Num x).

(** ** Proofs *)
Lemma usual_star kw : usual BinaryModel.STARPROPERTIES kw -> forall q, In q BinaryModel.STARPROPERTIES -> kget kw (hist q) = None.
Proof. intros H q I. exact (H q I). Qed.
Lemma kget_no_Z kw k : k <> "metallicity" -> kget (kdel kw "metallicity") k = kget kw k.
Proof. intros N. rewrite kget_del. destruct (String.eqb_spec k "metallicity"); [contradiction|reflexivity]. Qed.
Lemma kpop_no_Z kw k d : k <> "metallicity" -> kpop (kdel kw "metallicity") k d = kpop kw k d.
Proof. intros N. unfold kpop. now rewrite kget_no_Z. Qed.
Ltac prop_in := unfold BinaryModel.STARPROPERTIES; cbn [In]; tauto.
Lemma massless_kw Z kw f : find_defaults Z (Txt "massless_remnant") kw = Ok f -> f_kw f = kw.
Proof. cbn. intros E. match type of E with Ok ?t = _ => assert (f = t) by congruence end. now subst. Qed.

Theorem C155_given :
  forall kw o, SingleStar kw = Ok o -> usual BinaryModel.STARPROPERTIES kw ->
  forall p v, In p BinaryModel.STARPROPERTIES -> kget kw p = Some v -> ~ (p = "state" /\ In v [Txt "WD"; Txt "NS"; Txt "BH"]) ->
  o p = Some v /\ o (p ++ "_history")%string = Some (Lst [v]).
Proof.
  intros kw o E U p v I G N. destruct (star_parts kw o E (usual_star kw U)) as (kw2 & f & EK & EF & P). specialize (P p I). cbv zeta in P.
  fold (hist p). destruct (String.eqb_spec p "metallicity") as [-> | NP]; [unfold kpop in P; now rewrite G in P|].
  assert (W : kget (f_kw f) p = Some v); [|unfold kpop in P at 1; unfold kpop in P at 2; rewrite W in P; exact P].
  assert (W2 : kget kw2 p = Some v) by (rewrite (kick_get _ _ p EK) by (now left); now rewrite kget_no_Z).
  destruct (String.eqb_spec p "state") as [-> | NS]; [|rewrite (found_get _ _ _ _ p EF) by (now left); exact W2].
  assert (S1 : kpop (kdel kw "metallicity") "state" (Txt "H-rich_Core_H_burning") = v) by (rewrite kpop_no_Z by discriminate; unfold kpop; now rewrite G).
  rewrite S1 in *. destruct (is_compact v) eqn:C; [|rewrite (found_get _ _ _ _ _ EF) by (now right); exact W2].
  destruct v as [s | x | | l | n]; try discriminate. cbn [is_compact] in C. apply existsb_exists in C. destruct C as (t & T & EQ). apply String.eqb_eq in EQ. subst t.
  cbn [CO_states In] in T. destruct T as [<- | T].
  - now rewrite (massless_kw _ _ _ EF).
  - exfalso. apply N. split; [reflexivity|]. cbn [In]. destruct T as [<- | [<- | [<- | []]]]; tauto.
Qed.
Print Assumptions C155_given.
Theorem C155_every :
  forall kw o, SingleStar kw = Ok o -> usual BinaryModel.STARPROPERTIES kw ->
  forall p, In p BinaryModel.STARPROPERTIES -> exists v, o p = Some v /\ o (p ++ "_history")%string = Some (Lst [v]).
Proof.
  intros kw o E U p I. destruct (star_parts kw o E (usual_star kw U)) as (kw2 & f & EK & EF & P). specialize (P p I). cbv zeta in P. eexists. exact P.
Qed.
Print Assumptions C155_every.

(** A star that is not a compact object, without further information *)
Lemma living_parts kw o st : SingleStar kw = Ok o -> usual BinaryModel.STARPROPERTIES kw -> kpop kw "state" (Txt "H-rich_Core_H_burning") = Txt st -> is_compact (Txt st) = false ->
  exists kw2 f, expand_kick (kdel kw "metallicity") = Ok kw2 /\ find_defaults (kpop kw "metallicity" (num 1)) (Txt st) kw2 = Ok f /\
  (forall p, In p BinaryModel.STARPROPERTIES -> p <> "metallicity" -> kget kw p = None -> o p = Some (default_of f false p)) /\ mass_of kw2 = mass_of kw.
Proof.
  intros E U S L. destruct (star_parts kw o E (usual_star kw U)) as (kw2 & f & EK & EF & P).
  rewrite (kpop_no_Z _ "state") in EF, P by discriminate. rewrite S in EF, P. exists kw2, f. split; [exact EK|]. split; [exact EF|]. split.
  - intros p I NP G. destruct (P p I) as (P1 & _). rewrite P1. destruct (String.eqb_spec p "metallicity"); [contradiction|].
    unfold kpop at 1. rewrite (found_get _ _ _ _ p EF) by (now right). rewrite (kick_get _ _ p EK) by (now left). rewrite kget_no_Z, G by assumption. now rewrite L.
  - unfold mass_of, kpop. rewrite (kick_get _ _ "mass" EK) by (left; prop_in). now rewrite kget_no_Z by discriminate.
Qed.
Lemma table_in t z y : table_get t z = Some y -> In (z, y) t.
Proof.
  induction t as [|(k, v) t IH]; cbn [table_get]; [discriminate|]. destruct (Req_EM_T z k) as [-> |]; [|intros H; right; now apply IH].
  intros H. left. congruence.
Qed.
Lemma lookup_in v z y : lookup_Z v = Ok (z, y) -> v = num z /\ In (z, y) zams_table.
Proof.
  destruct v as [s | [x|] | | l | n]; cbn [lookup_Z]; try discriminate. destruct (table_get zams_table x) eqn:T; [|discriminate].
  intros H. assert (x = z) by congruence. assert (r = y) by congruence. subst. split; [reflexivity|]. now apply table_in.
Qed.
Theorem C155_defaults :
  forall kw o s b z Y, SingleStar kw = Ok o -> usual BinaryModel.STARPROPERTIES kw ->
  kpop kw "state" (Txt "H-rich_Core_H_burning") = Txt (state_name s b) -> kpop kw "metallicity" (num 1) = num z -> In (z, Y) zams_table ->
  (forall k, In k ["center_h1"; "center_he4"; "log_R"; "he_core_mass"] -> kget kw k = None) ->
  forall X He r core, assumed s b Y (z * 0.0142) = (X, He, r, core) ->
  o "center_h1" = Some (num X) /\ o "center_he4" = Some (num He) /\ o "log_R" = Some (num r) /\
  o "he_core_mass" = Some (if core then match kget kw "mass" with Some m => m | None => Nil end else num 0).
Proof.
  intros kw o s b z Y E U S M T K X He r core A.
  assert (L : is_compact (Txt (state_name s b)) = false) by (destruct s, b; reflexivity).
  destruct (living_parts kw o _ E U S L) as (kw2 & f & EK & EF & P & MM).
  assert (P1 := P "center_h1" ltac:(prop_in) ltac:(discriminate) (K "center_h1" ltac:(cbn [In]; tauto))).
  assert (P2 := P "center_he4" ltac:(prop_in) ltac:(discriminate) (K "center_he4" ltac:(cbn [In]; tauto))).
  assert (P3 := P "log_R" ltac:(prop_in) ltac:(discriminate) (K "log_R" ltac:(cbn [In]; tauto))).
  assert (P4 := P "he_core_mass" ltac:(prop_in) ltac:(discriminate) (K "he_core_mass" ltac:(cbn [In]; tauto))).
  change (default_of f false "center_h1") with (d_X f) in P1. change (default_of f false "center_he4") with (d_Y f) in P2.
  change (default_of f false "log_R") with (d_log_R f) in P3. change (default_of f false "he_core_mass") with (d_He_core f) in P4.
  rewrite P1, P2, P3, P4. clear P P1 P2 P3 P4 E.
  assert (LZ : lookup_Z (num z) = Ok (z, Y)).
  { unfold num, lookup_Z. assert (G : table_get zams_table z = Some Y); [|now rewrite G].
    cbn [zams_table In] in T.
    repeat (destruct T as [T | T]; [assert (Q1 := f_equal fst T); assert (Q2 := f_equal snd T); cbn [fst snd] in Q1, Q2; rewrite <- Q1, <- Q2; cbn [table_get zams_table];
      repeat (destruct (Req_EM_T _ _); [first [reflexivity | exfalso; lra] | try congruence])|]).
    contradiction. }
  rewrite M in EF. fold (mass_of kw) in *. unfold find_defaults in EF. cbn [is_compact] in L. rewrite L, LZ in EF. cbn [rbind] in EF.
  assert (MK : mass_of kw = match kget kw "mass" with Some m => m | None => Nil end) by reflexivity. rewrite MM in EF. rewrite <- MK. clear MK.
  assert (D : forall x y : R, x = y -> Some (num x) = Some (num y)) by (intros; now subst).
  destruct s, b; cbn [assumed] in A;
    match type of EF with
    | context [state_name ?a ?c] =>
        repeat match type of EF with context [py_in ?x ?y] => let t := eval vm_compute in (py_in x y) in change (py_in x y) with t in EF end
    end; cbn [andb orb] in EF;
    match type of EF with Ok ?t = _ => assert (f = t) by congruence end; subst f; cbn [d_X d_Y d_log_R d_He_core];
    assert (AX := f_equal (fun t => fst (fst (fst t))) A); assert (AY := f_equal (fun t => snd (fst (fst t))) A); assert (AR := f_equal (fun t => snd (fst t)) A);
    assert (AC := f_equal snd A); cbn [fst snd] in AX, AY, AR, AC; subst core;
    (split; [apply D; rewrite <- AX; unfold LOW_ABUNDANCE, THRESHOLD_CENTRAL_ABUNDANCE, Zsun; lra|]);
    (split; [apply D; rewrite <- AY; unfold LOW_ABUNDANCE, THRESHOLD_CENTRAL_ABUNDANCE, Zsun; lra|]);
    (split; [apply D; rewrite <- AR; lra|reflexivity]).
Qed.
Print Assumptions C155_defaults.
(** Whatever the state, abundances assumed are positive and leave room for the metals. *)
Theorem C155_abundances :
  forall kw o st, SingleStar kw = Ok o -> usual BinaryModel.STARPROPERTIES kw ->
  kpop kw "state" (Txt "H-rich_Core_H_burning") = Txt st -> ~ In st ["WD"; "NS"; "BH"; "massless_remnant"] ->
  kget kw "center_h1" = None -> kget kw "center_he4" = None ->
  exists z X Y, kpop kw "metallicity" (num 1) = num z /\ o "center_h1" = Some (num X) /\ o "center_he4" = Some (num Y) /\
  0 < X /\ 0 < Y /\ X + Y <= 1 - z * 0.0142.
Proof.
  intros kw o st E U S N K1 K2.
  assert (L : is_compact (Txt st) = false).
  { cbn [is_compact]. destruct (existsb (String.eqb st) CO_states) eqn:C; [|reflexivity]. exfalso. apply existsb_exists in C. destruct C as (t & T & EQ).
    apply String.eqb_eq in EQ. subst t. apply N. cbn [CO_states In] in T |- *. tauto. }
  destruct (living_parts kw o _ E U S L) as (kw2 & f & EK & EF & P & MM).
  assert (P1 := P "center_h1" ltac:(prop_in) ltac:(discriminate) K1). assert (P2 := P "center_he4" ltac:(prop_in) ltac:(discriminate) K2).
  change (default_of f false "center_h1") with (d_X f) in P1. change (default_of f false "center_he4") with (d_Y f) in P2. rewrite P1, P2. clear P P1 P2 E.
  unfold find_defaults in EF. cbn [is_compact] in L. rewrite L in EF.
  destruct (lookup_Z (kpop kw "metallicity" (num 1))) as [(z, Y)|] eqn:LZ; [|discriminate]. cbn [rbind] in EF. destruct (lookup_in _ _ _ LZ) as (-> & T).
  exists z.
  assert (B : 0 < Y < 0.3 /\ 0 < z <= 2).
  { cbn [zams_table In] in T. repeat (destruct T as [T | T]; [split; assert (Q1 := f_equal fst T); assert (Q2 := f_equal snd T); cbn [fst snd] in Q1, Q2; lra|]). contradiction. }
  repeat match type of EF with (if ?b then _ else _) = _ => destruct b end;
    match type of EF with Ok ?t = _ => assert (f = t) by congruence end; subst f; cbn [d_X d_Y];
    do 2 eexists; (split; [reflexivity|]); (split; [reflexivity|]); (split; [reflexivity|]); unfold LOW_ABUNDANCE, THRESHOLD_CENTRAL_ABUNDANCE, Zsun; lra.
Qed.
Print Assumptions C155_abundances.

(** Compact objects *)
Lemma any_positive_spec kw l : (forall k, In k l -> numeric kw k) ->
  exists b, any_positive (map (fun k => kpop kw k nan) l) = Ok b /\ (b = true <-> exists k x, In k l /\ kget kw k = Some (num x) /\ 0 < x).
Proof.
  induction l as [|k l IH]; intros H.
  - exists false. split; [reflexivity|]. split; [discriminate|]. intros (k & x & [] & _).
  - cbn [map any_positive]. destruct (H k (or_introl eq_refl)) as [N | [N | (x & N)]].
    + unfold kpop at 1. rewrite N. cbn [positive nan rbind]. destruct IH as (b & EB & BB); [intros q Q; apply H; now right|]. exists b. split; [exact EB|].
      rewrite BB. split; [intros (q & y & Q & G); exists q, y; split; [now right|exact G]|]. intros (q & y & [<- | Q] & G & X); [congruence|]. now exists q, y.
    + unfold kpop at 1. rewrite N. cbn [positive rbind]. destruct IH as (b & EB & BB); [intros q Q; apply H; now right|]. exists b. split; [exact EB|].
      rewrite BB. split; [intros (q & y & Q & G); exists q, y; split; [now right|exact G]|]. intros (q & y & [<- | Q] & G & X); [unfold num in G; congruence|]. now exists q, y.
    + unfold kpop at 1. rewrite N. destruct x as [x|].
      * cbn [positive rbind]. destruct (Rlt_dec 0 x) as [P | P].
        -- exists true. split; [reflexivity|]. split; [|reflexivity]. intros _. exists k, x. split; [now left|]. now split.
        -- destruct IH as (b & EB & BB); [intros q Q; apply H; now right|]. exists b. split; [exact EB|].
           rewrite BB. split; [intros (q & y & Q & G); exists q, y; split; [now right|exact G]|]. intros (q & y & [<- | Q] & G & X); [|now exists q, y].
           assert (y = x) by (unfold num in G; congruence). subst. contradiction.
      * cbn [positive rbind]. destruct IH as (b & EB & BB); [intros q Q; apply H; now right|]. exists b. split; [exact EB|].
        rewrite BB. split; [intros (q & y & Q & G); exists q, y; split; [now right|exact G]|]. intros (q & y & [<- | Q] & G & X); [unfold num in G; congruence|]. now exists q, y.
Qed.
Lemma infer_spec kw m : 0 < m -> kget kw "mass" = Some (num m) -> (forall k, In k ["surface_h1"; "center_h1"; "center_he4"; "center_c12"] -> numeric kw k) ->
  exists st, infer_CO (mass_of kw) [kpop kw "surface_h1" nan; kpop kw "center_h1" nan; kpop kw "center_he4" nan; kpop kw "center_c12" nan] = Ok st /\ remnant m (leftovers kw) st.
Proof.
  intros P M N. unfold mass_of, kpop at 1. rewrite M. unfold num, infer_CO. destruct (Rle_dec m 0); [lra|].
  destruct (any_positive_spec kw _ N) as (b & EB & BB). cbn [map] in EB. rewrite EB. cbn [rbind]. fold (leftovers kw) in BB.
  destruct (Rle_dec m 1.46) as [Q | Q].
  - destruct b; cbn [orb andb].
    + exists "WD". split; [reflexivity|]. constructor. right. split; [now apply BB|exact Q].
    + destruct (Rlt_dec m 1.1) as [V | V]; cbn [andb].
      * exists "WD". split; [reflexivity|]. constructor. now left.
      * destruct (Rle_dec m 2.5); [|lra]. exists "NS". split; [reflexivity|]. constructor; [lra|]. intros F. apply BB in F. discriminate.
  - rewrite andb_false_r. destruct (Rle_dec m 2.5).
    + exists "NS". split; [reflexivity|]. constructor; [lra|]. intros _. lra.
    + exists "BH". split; [reflexivity|]. constructor. lra.
Qed.
Lemma remnant_fun m F a b : remnant m F a -> remnant m F b -> a = b.
Proof. intros [A | A A' | A] [B | B B' | B]; try reflexivity; exfalso; intuition lra. Qed.
Lemma remnant_iff m F G a : (F <-> G) -> remnant m F a -> remnant m G a.
Proof. intros H [A | A A' | A]; constructor; tauto. Qed.
Theorem C155_compact :
  forall kw o st m, SingleStar kw = Ok o -> usual BinaryModel.STARPROPERTIES kw -> In st ["WD"; "NS"; "BH"] -> kget kw "state" = Some (Txt st) ->
  kget kw "mass" = Some (num m) -> 0 < m -> (forall k, In k ["surface_h1"; "center_h1"; "center_he4"; "center_c12"] -> numeric kw k) ->
  exists st', remnant m (leftovers kw) st' /\ o "state" = Some (Txt st') /\ o "state_history" = Some (Lst [Txt st']) /\
  (kget kw "log_R" = None -> exists r, CO_radius m st = Ok r /\ o "log_R" = Some (num (ln r / ln 10))).
Proof.
  intros kw o st m E U I G M P N. destruct (star_parts kw o E (usual_star kw U)) as (kw2 & f & EK & EF & Q).
  assert (S1 : kpop (kdel kw "metallicity") "state" (Txt "H-rich_Core_H_burning") = Txt st) by (rewrite kpop_no_Z by discriminate; unfold kpop; now rewrite G).
  rewrite S1 in EF, Q.
  assert (C : is_compact (Txt st) = true) by (cbn [In] in I; destruct I as [<- | [<- | [<- | []]]]; reflexivity).
  assert (NM : st <> "massless_remnant") by (cbn [In] in I; destruct I as [<- | [<- | [<- | []]]]; discriminate).
  assert (SAME : forall k, In k BinaryModel.STARPROPERTIES -> k <> "metallicity" -> kget kw2 k = kget kw k).
  { intros k K NK. rewrite (kick_get _ _ k EK) by (now left). now rewrite kget_no_Z. }
  destruct (found_state _ _ _ _ EF C NM) as (st' & EI & ES & ER).
  destruct (infer_spec kw2 m P) as (st2 & EI2 & RM).
  { rewrite SAME; [exact M|prop_in|discriminate]. }
  { intros k K. assert (X : kget kw2 k = kget kw k) by (cbn [In] in K; destruct K as [<- | [<- | [<- | [<- | []]]]]; apply SAME; try discriminate; prop_in).
    unfold numeric. rewrite X. now apply N. }
  assert (st2 = st') by congruence. subst st2. exists st'. split.
  { apply (remnant_iff m (leftovers kw2)); [|exact RM]. unfold leftovers. split; intros (k & x & K & V & W); exists k, x; (split; [exact K|]); (split; [|exact W]);
      (rewrite <- V; cbn [In] in K; destruct K as [<- | [<- | [<- | [<- | []]]]]; first [apply SAME | symmetry; apply SAME]; try discriminate; prop_in). }
  destruct (Q "state" ltac:(prop_in)) as (Q1 & Q2). change (String.eqb "state" "metallicity") with false in Q1, Q2. cbv iota in Q1, Q2.
  assert (W : kget (f_kw f) "state" = Some (Txt st')).
  { rewrite ES. destruct (String.eqb_spec st st') as [<- | _]; [|reflexivity]. rewrite SAME; [exact G|prop_in|discriminate]. }
  unfold kpop at 1 in Q1. unfold kpop at 1 in Q2. rewrite W in Q1, Q2. split; [exact Q1|]. split; [exact Q2|].
  intros K. destruct (Q "log_R" ltac:(prop_in)) as (Q3 & _). change (String.eqb "log_R" "metallicity") with false in Q3. cbv iota in Q3.
  unfold kpop at 1 in Q3. rewrite (found_get _ _ _ _ "log_R" EF) in Q3 by (left; discriminate). rewrite SAME, K in Q3; [|prop_in|discriminate].
  unfold CO_log_R, mass_of, kpop in ER. rewrite SAME, M in ER; [|prop_in|discriminate]. cbn [num] in ER. unfold num in ER.
  destruct (CO_radius m st) as [r|] eqn:R; [|discriminate]. cbn [rbind] in ER. exists r. split; [reflexivity|]. rewrite Q3.
  change (default_of f _ "log_R") with (d_log_R f). assert (D : d_log_R f = num (log10 r)) by (unfold num; congruence). now rewrite D.
Qed.
Print Assumptions C155_compact.

(** What else is not given is not known, but cores of compact objects have no mass *)
Theorem C155_rest :
  forall kw o st, SingleStar kw = Ok o -> usual BinaryModel.STARPROPERTIES kw -> kpop kw "state" (Txt "H-rich_Core_H_burning") = Txt st ->
  forall p, In p BinaryModel.STARPROPERTIES -> ~ In p ["metallicity"; "state"; "log_R"; "center_h1"; "center_he4"; "he_core_mass"; "profile"] -> kget kw p = None ->
  (In p ["c_core_mass"; "o_core_mass"; "co_core_mass"] -> In st ["massless_remnant"; "WD"; "NS"; "BH"] -> o p = Some (num 0)) /\
  (~ In p ["c_core_mass"; "o_core_mass"; "co_core_mass"] \/ ~ In st ["massless_remnant"; "WD"; "NS"; "BH"] -> o p = Some nan).
Proof.
  intros kw o st E U S p I NP G. destruct (star_parts kw o E (usual_star kw U)) as (kw2 & f & EK & EF & P).
  rewrite (kpop_no_Z _ "state") in EF, P by discriminate. rewrite S in EF, P. destruct (P p I) as (P1 & _). cbv zeta in P1.
  assert (NM : p <> "metallicity") by (intros ->; apply NP; now left). assert (NS : p <> "state") by (intros ->; apply NP; cbn; auto).
  destruct (String.eqb_spec p "metallicity"); [contradiction|]. unfold kpop at 1 in P1.
  rewrite (found_get _ _ _ _ p EF) in P1 by (now left). rewrite (kick_get _ _ p EK) in P1 by (now left). rewrite kget_no_Z, G in P1 by assumption. rewrite P1.
  assert (C : is_compact (Txt st) = true <-> In st ["massless_remnant"; "WD"; "NS"; "BH"]).
  { cbn [is_compact]. rewrite existsb_exists. split.
    - intros (t & T & EQ). apply String.eqb_eq in EQ. subst t. cbn [CO_states In] in T |- *. tauto.
    - intros T. exists st. split; [cbn [CO_states In] in T |- *; tauto|apply String.eqb_refl]. }
  rewrite <- C. destruct (is_compact (Txt st)).
  - cbn [BinaryModel.STARPROPERTIES In] in I. repeat (destruct I as [<-|I]; [clear -NP; cbn in NP |- *; intuition (try discriminate; try reflexivity)|]). contradiction.
  - cbn [BinaryModel.STARPROPERTIES In] in I. repeat (destruct I as [<-|I]; [clear -NP; cbn in NP |- *; intuition (try discriminate; try reflexivity)|]). contradiction.
Qed.
Print Assumptions C155_rest.

(** Further attributes: each as given, with a history of that entry unless it is one of the values a star has once *)
Definition ONCE : list string :=
  ["natal_kick_velocity"; "natal_kick_azimuthal_angle"; "natal_kick_polar_angle"; "natal_kick_mean_anomaly"; "natal_kick_array_0"; "natal_kick_array_1"; "natal_kick_array_2";
   "natal_kick_array_3"; "SN_type"; "f_fb"; "spin_orbit_tilt_first_SN"; "spin_orbit_tilt_second_SN"; "M4"; "mu4"; "avg_c_in_c_core_at_He_depletion";
   "co_core_mass_at_He_depletion"; "h1_mass_ej"; "he4_mass_ej"; "m_disk_radiated"; "m_disk_accreted"].
Lemma bind_ok {A B : Type} (x : result A) (f : A -> result B) y : rbind x f = Ok y -> exists a, x = Ok a /\ f a = Ok y.
Proof. destruct x as [a|]; [|discriminate]. intros H. now exists a. Qed.
Lemma kdel_nodup kw k : NoDup (map fst kw) -> NoDup (map fst (kdel kw k)).
Proof.
  induction kw as [|p kw IH]; intros N; [constructor|]. inversion N as [|? ? NI N']; subst. cbn [kdel filter]. fold (kdel kw k). destruct (negb _); [|auto]. cbn [map]. constructor; auto.
  intros I. apply NI. apply in_map_iff in I as (q & E & I). apply filter_In in I as [I _]. apply in_map_iff. now exists q.
Qed.
Lemma loop_kw_nodup f c : forall l o kw o' kw', fold_left (set_property f c) l (o, kw) = (o', kw') -> NoDup (map fst kw) -> NoDup (map fst kw').
Proof.
  induction l as [|x l IH]; intros o kw o' kw' E N; [cbn in E; assert (kw = kw') by congruence; now subst|]. cbn [fold_left] in E.
  destruct (set_property f c (o, kw) x) as [o1 kw1] eqn:S. apply (IH _ _ _ _ E). unfold set_property in S.
  destruct (String.eqb x "metallicity"); [assert (kw1 = kw) by congruence; now subst|]. assert (kw1 = kdel kw x) by congruence. subst. now apply kdel_nodup.
Qed.
Lemma extras_set : forall l o k v, NoDup (map fst l) -> kget l k = Some v -> (forall q, kget l q <> None -> forall q', q <> hist q') ->
  fold_left set_extra l o k = Some v /\ fold_left set_extra l o (hist k) = (if existsb (String.eqb k) NO_HISTORY then o (hist k) else Some (Lst [v])).
Proof.
  induction l as [|(x, w) l IH]; intros o k v N G P; [discriminate|]. inversion N as [|? ? NI N']; subst. cbn [fold_left].
  assert (P' : forall q, kget l q <> None -> forall q', q <> hist q').
  { intros q Q. apply P. unfold kget in Q |- *. cbn [dget]. destruct (String.eqb q x); [discriminate|exact Q]. }
  assert (NH : forall q, kget l (hist q) = None) by (intro q; destruct (kget l (hist q)) eqn:E; [|reflexivity]; exfalso; apply (P' (hist q)) with (q' := q); congruence).
  unfold kget in G. cbn [dget] in G. destruct (String.eqb_spec k x) as [-> | NX].
  - assert (v = w) by congruence. subst w. assert (NG : kget l x = None).
    { destruct (kget l x) eqn:E; [|reflexivity]. exfalso. apply NI. apply kget_in. congruence. }
    assert (PX : forall q', x <> hist q') by (apply P; unfold kget; cbn [dget]; rewrite String.eqb_refl; discriminate).
    split.
    + rewrite extras_keep; [|exact NG|intros q _; apply PX]. unfold set_extra. cbn [fst snd].
      destruct (existsb (String.eqb x) NO_HISTORY); [apply set_same|rewrite set_other by apply PX; apply set_same].
    + rewrite extras_keep; [|apply NH|intros q Q K; apply hist_inj in K; subst q; congruence]. unfold set_extra. cbn [fst snd].
      destruct (existsb (String.eqb x) NO_HISTORY); [rewrite set_other; [reflexivity|intro K; symmetry in K; now apply PX in K]|apply set_same].
  - destruct (IH (set_extra o (x, w)) k v N' G P') as [A B]. split; [exact A|]. rewrite B. destruct (existsb (String.eqb k) NO_HISTORY); [|reflexivity].
    assert (PX : forall q', x <> hist q') by (apply P; unfold kget; cbn [dget]; rewrite String.eqb_refl; discriminate).
    unfold set_extra. cbn [fst snd]. destruct (existsb (String.eqb x) NO_HISTORY); rewrite ?set_other; try reflexivity;
      try (intro K; symmetry in K; now apply PX in K); intro K; apply hist_inj in K; contradiction.
Qed.
Lemma missing_none v k : forall l o, (forall x, In x l -> x <> k) -> o k = None -> fold_left (set_missing v) l o k = None.
Proof.
  induction l as [|x l IH]; intros o NL X; [exact X|]. cbn [fold_left]. apply IH; [intros y Y; apply NL; now right|]. unfold set_missing.
  destruct (hasattr o x); [exact X|]. rewrite set_other; [exact X|]. intro K. apply (NL x); [now left|auto].
Qed.
Lemma extra_kept :
  forall kw kw1 o k v, SingleStar kw = Ok o -> expand_kick (kdel kw "metallicity") = Ok kw1 -> NoDup (map fst kw1) -> (forall q, In q (map fst kw1) -> forall q', q <> hist q') ->
  kget kw1 k = Some v -> ~ In k BinaryModel.STARPROPERTIES ->
  o k = Some v /\ (In k ONCE -> o (k ++ "_history")%string = None) /\ (~ In k ONCE -> o (k ++ "_history")%string = Some (Lst [v])).
Proof.
  intros kw kw1 o k v E EK N PL G NP. unfold SingleStar in E. set (Z := kpop kw "metallicity" (num 1)) in *. rewrite EK in E. cbn [rbind] in E.
  set (st := kpop (kdel kw "metallicity") "state" (Txt "H-rich_Core_H_burning")) in *.
  destruct (find_defaults Z st kw1) as [f|] eqn:EF; [|discriminate]. cbn [rbind] in E.
  destruct (fold_left _ _ _) as (o1, kw3) eqn:EL. assert (W : o = fold_left (set_missing Nil) LATER (fold_left set_extra kw3 o1)) by congruence. clear E.
  destruct (star_loop f (is_compact st) _ _ _ _ _ star_nodup star_plain EL) as (A & B & _).
  assert (NM : k <> "metallicity") by (intros ->; apply NP; prop_in). assert (NS : k <> "state") by (intros ->; apply NP; prop_in).
  assert (NF : NoDup (map fst (f_kw f))).
  { assert (F : f_kw f = kw1 \/ exists s, f_kw f = dset String.eqb kw1 "state" s).
    { clear -EF. clearbody st. unfold find_defaults in EF. destruct st as [s | x | | l | n];
        try (apply bind_ok in EF as (? & _ & EF); discriminate).
      destruct (existsb (String.eqb s) CO_states).
      - destruct (String.eqb s "massless_remnant"); [assert (EF' := EF); left; match type of EF with Ok ?t = _ => assert (f = t) by congruence end; now subst|].
        apply bind_ok in EF as (r & _ & EF). apply bind_ok in EF as (s' & _ & EF). match type of EF with Ok ?t = _ => assert (f = t) by congruence end. subst f. cbn [f_kw].
        destruct (String.eqb s s'); [now left|right; now eexists].
      - apply bind_ok in EF as ((z, Y) & _ & EF). left.
        repeat match type of EF with (if ?b then _ else _) = _ => destruct b end; match type of EF with Ok ?t = _ => assert (f = t) by congruence end; now subst. }
    destruct F as [-> | (s & ->)]; [exact N|]. now apply (NoDup_dset String.eqb_spec). }
  assert (N3 := loop_kw_nodup _ _ _ _ _ _ _ EL NF).
  assert (GK : kget kw3 k = Some v).
  { rewrite A. destruct (in_dec string_dec k BinaryModel.STARPROPERTIES); [contradiction|]. rewrite (found_get _ _ _ _ k EF) by (now left). exact G. }
  assert (P3 : forall q, kget kw3 q <> None -> forall q', q <> hist q').
  { intros q Q q' ->. assert (NQ : hist q' <> "state") by (intros K; assert (T := hist_in q'); rewrite K in T; discriminate).
    rewrite A in Q. destruct (in_dec string_dec (hist q') BinaryModel.STARPROPERTIES) as [J | _]; [exact (plain_hist _ _ q' star_plain J eq_refl)|].
    rewrite (found_get _ _ _ _ _ EF) in Q by (now left). apply kget_in in Q. exact (PL _ Q q' eq_refl). }
  destruct (extras_set kw3 o1 k v N3 GK P3) as (X1 & X2). fold (hist k).
  assert (EO : existsb (String.eqb k) NO_HISTORY = true <-> In k ONCE).
  { change ONCE with NO_HISTORY. rewrite existsb_exists. split; [intros (x & I & EQ); apply String.eqb_eq in EQ; now subst|]. intro I. exists k. split; [exact I|apply String.eqb_refl]. }
  split; [rewrite W; now apply missing_keep|]. split; intros I.
  - assert (NH : o1 (hist k) = None).
    { rewrite B; [|intros J; exact (plain_hist _ _ k star_plain J eq_refl)|intros q Q K; apply hist_inj in K; now subst]. apply set_other.
      intros K. assert (T := hist_in k). rewrite K in T. discriminate. }
    apply EO in I. rewrite I, NH in X2. rewrite W. revert X2. generalize (fold_left set_extra kw3 o1). intro o2.
    assert (NL : forall x, In x LATER -> x <> hist k).
    { assert (T : forallb (fun x => negb (py_in "_history" x)) LATER = true) by (vm_compute; reflexivity). rewrite forallb_forall in T. intros x Q ->. specialize (T _ Q).
      rewrite hist_in in T. discriminate. }
    now apply missing_none.
  - rewrite W. apply missing_keep. rewrite X2. destruct (existsb (String.eqb k) NO_HISTORY); [|reflexivity]. exfalso. apply I. now apply EO.
Qed.
Lemma kdel_sub kw k q : In q (map fst (kdel kw k)) -> In q (map fst kw).
Proof. intro I. apply in_map_iff in I as (p & E & I). apply filter_In in I as [I _]. apply in_map_iff. now exists p. Qed.
Theorem C155_extra :
  forall kw o k v, SingleStar kw = Ok o -> NoDup (map fst kw) -> (forall q, In q (map fst kw) -> forall q', q <> (q' ++ "_history")%string) ->
  kget kw "natal_kick_array" = None -> kget kw k = Some v -> ~ In k BinaryModel.STARPROPERTIES ->
  o k = Some v /\ (In k ONCE -> o (k ++ "_history")%string = None) /\ (~ In k ONCE -> o (k ++ "_history")%string = Some (Lst [v])).
Proof.
  intros kw o k v E N PL NK G NP. assert (NM : k <> "metallicity") by (intros ->; apply NP; prop_in). apply (extra_kept kw (kdel kw "metallicity")); trivial.
  - unfold expand_kick. rewrite kget_no_Z, NK by discriminate. reflexivity.
  - now apply kdel_nodup.
  - intros q I. apply PL. now apply kdel_sub in I.
  - now rewrite kget_no_Z.
Qed.
(** A kick given as a list is taken apart; too short a list and anything else are refused. *)
Definition KICK : list string := ["natal_kick_velocity"; "natal_kick_azimuthal_angle"; "natal_kick_polar_angle"; "natal_kick_mean_anomaly"].
Theorem C155_kick :
  forall kw v, NoDup (map fst kw) -> (forall q, In q (map fst kw) -> forall q', q <> (q' ++ "_history")%string) -> kget kw "natal_kick_array" = Some v ->
  (forall o, SingleStar kw = Ok o -> exists l, v = Lst l /\ (forall i k, nth_error KICK i = Some k -> o k = nth_error l i /\ o k <> None /\ o (k ++ "_history")%string = None)) /\
  (forall l, v = Lst l -> (length l < 4)%nat -> SingleStar kw = Raise IndexError) /\
  ((forall l, v <> Lst l) -> SingleStar kw = Raise TypeError).
Proof.
  intros kw v N PL G. assert (G1 : kget (kdel kw "metallicity") "natal_kick_array" = Some v) by (now rewrite kget_no_Z by discriminate). split; [|split].
  - intros o E. destruct (expand_kick (kdel kw "metallicity")) as [kw2|e] eqn:EK; [|unfold SingleStar in E; rewrite EK in E; discriminate]. assert (EK' := EK).
    unfold expand_kick in EK. rewrite G1 in EK. destruct v as [s | x | | l | n]; try discriminate. exists l. split; [reflexivity|].
    destruct l as [|a [|b [|c [|d l]]]]; try discriminate. match type of EK with Ok ?t = _ => assert (W : kw2 = t) by congruence end. clear EK.
    set (kw1 := kdel kw "metallicity") in *.
    assert (N2 : NoDup (map fst kw2)).
    { subst kw2. apply kdel_nodup. apply (NoDup_dset_all String.eqb_spec). now apply kdel_nodup. }
    assert (GET : forall k, kget kw2 k = if String.eqb k "natal_kick_array" then None else
        match last_write String.eqb [("natal_kick_velocity", a); ("natal_kick_azimuthal_angle", b); ("natal_kick_polar_angle", c); ("natal_kick_mean_anomaly", d)] k with
        | Some w => Some w | None => kget kw1 k end).
    { intro k. subst kw2. rewrite kget_del. destruct (String.eqb k "natal_kick_array"); [reflexivity|]. unfold kget. apply (dget_dset_all String.eqb_spec). }
    assert (P2 : forall q, In q (map fst kw2) -> forall q', q <> hist q').
    { intros q I q' ->. assert (T := hist_in q'). apply kget_in in I. rewrite GET in I.
      destruct (String.eqb_spec (hist q') "natal_kick_array") as [K|_]; [contradiction|].
      unfold last_write in I. cbn [fold_left fst snd] in I.
      repeat match type of I with context [String.eqb (hist q') ?b] => destruct (String.eqb_spec (hist q') b) as [K | _]; [rewrite K in T; discriminate|] end.
      apply kget_in in I. apply kdel_sub in I. exact (PL _ I q' eq_refl). }
    intros i k I. assert (K : exists w, kget kw2 k = Some w /\ nth_error (a :: b :: c :: d :: l) i = Some w /\ ~ In k BinaryModel.STARPROPERTIES /\ In k ONCE).
    { assert (NP : forallb (fun x => negb (existsb (String.eqb x) BinaryModel.STARPROPERTIES)) KICK = true) by (vm_compute; reflexivity).
      rewrite forallb_forall in NP. assert (NP' : ~ In k BinaryModel.STARPROPERTIES).
      { intro J. assert (M := NP k (nth_error_In _ _ I)). apply negb_true_iff in M. assert (existsb (String.eqb k) BinaryModel.STARPROPERTIES = true).
        { apply existsb_exists. exists k. split; [exact J|apply String.eqb_refl]. } congruence. }
      rewrite GET. destruct i as [|[|[|[|i]]]]; cbn [KICK nth_error] in I; try (destruct i; discriminate); assert (KE := f_equal (fun x => match x with Some y => y | None => "" end) I);
        cbn in KE; subst k; eexists; (split; [reflexivity|]); (split; [reflexivity|]); (split; [exact NP'|cbn; auto 8]). }
    destruct K as (w & GW & NW & NP & ON). destruct (extra_kept kw kw2 o k w E EK' N2 P2 GW NP) as (X1 & X2 & _). rewrite X1, NW. split; [reflexivity|]. split; [discriminate|]. now apply X2.
  - intros l -> L. unfold SingleStar. unfold expand_kick. rewrite G1. destruct l as [|a [|b [|c [|d l]]]]; try reflexivity. cbn in L. lia.
  - intros NL. unfold SingleStar, expand_kick. rewrite G1. destruct v as [s | x | | l | n]; try reflexivity. exfalso. now apply (NL l).
Qed.
Print Assumptions C155_kick.
Print Assumptions C155_extra.

(** Which arguments are refused, without a list of kicks *)
Theorem C155_refuses :
  forall kw st, kget kw "natal_kick_array" = None -> kpop kw "state" (Txt "H-rich_Core_H_burning") = Txt st ->
  (~ In st ["WD"; "NS"; "BH"; "massless_remnant"] ->
     ((exists o, SingleStar kw = Ok o) <-> exists z Y, kpop kw "metallicity" (num 1) = num z /\ In (z, Y) zams_table) /\
     (forall z, kpop kw "metallicity" (num 1) = num z -> (forall Y, ~ In (z, Y) zams_table) -> SingleStar kw = Raise KeyError)) /\
  (In st ["WD"; "NS"; "BH"] -> forall m, kget kw "mass" = Some (num m) -> m <= 0 -> SingleStar kw = Raise ValueError) /\
  (In st ["WD"; "NS"; "BH"] -> kget kw "mass" = None -> SingleStar kw = Raise TypeError) /\
  (In st ["WD"; "NS"; "BH"] -> forall m, kget kw "mass" = Some (num m) -> 0 < m ->
     (forall k, In k ["surface_h1"; "center_h1"; "center_he4"; "center_c12"] -> numeric kw k) -> exists o, SingleStar kw = Ok o).
Proof.
  intros kw st NK S.
  assert (EK : expand_kick (kdel kw "metallicity") = Ok (kdel kw "metallicity")) by (unfold expand_kick; rewrite kget_no_Z, NK by discriminate; reflexivity).
  assert (H : forall r, find_defaults (kpop kw "metallicity" (num 1)) (Txt st) (kdel kw "metallicity") = r ->
     match r with Ok _ => exists o, SingleStar kw = Ok o | Raise e => SingleStar kw = Raise e end).
  { intros r ER. unfold SingleStar. rewrite EK. cbn [rbind]. rewrite kpop_no_Z, S, ER by discriminate. destruct r as [f|e]; [|reflexivity]. cbn [rbind].
    destruct (fold_left _ _ _) as (o1, kw3). now eexists. }
  specialize (H _ eq_refl). set (r := find_defaults _ _ _) in *.
  assert (MM : mass_of (kdel kw "metallicity") = kpop kw "mass" Nil) by (unfold mass_of; now apply kpop_no_Z).
  split; [|split; [|split]].
  - intros N. assert (L : existsb (String.eqb st) CO_states = false).
    { destruct (existsb (String.eqb st) CO_states) eqn:C; [|reflexivity]. exfalso. apply existsb_exists in C. destruct C as (t & T & EQ).
      apply String.eqb_eq in EQ. subst t. apply N. cbn [CO_states In] in T |- *. tauto. }
    assert (R : forall e, lookup_Z (kpop kw "metallicity" (num 1)) = Raise e -> r = Raise e) by (intros e EE; unfold r, find_defaults; now rewrite L, EE).
    assert (R2 : forall zy, lookup_Z (kpop kw "metallicity" (num 1)) = Ok zy -> exists f, r = Ok f).
    { intros (z, y) EE. unfold r, find_defaults. rewrite L, EE. cbn [rbind].
      repeat match goal with |- exists f, (if ?b then _ else _) = Ok f => destruct b end; now eexists. }
    split.
    + split.
      * intros (o & EO). destruct (lookup_Z (kpop kw "metallicity" (num 1))) as [(z, Y)|e] eqn:LZ.
        -- exists z, Y. now apply lookup_in.
        -- rewrite (R e eq_refl) in H. congruence.
      * intros (z & Y & EZ & T). assert (LZ : exists zy, lookup_Z (kpop kw "metallicity" (num 1)) = Ok zy).
        { rewrite EZ. unfold lookup_Z, num. destruct (table_get zams_table z) eqn:G; [now eexists|]. exfalso. clear -T G.
          induction zams_table as [|(k, v) t IH]; [contradiction|]. cbn [table_get] in G. destruct (Req_EM_T z k); [discriminate|].
          destruct T as [T | T]; [congruence|]. now apply IH. }
        destruct LZ as (zy & LZ). destruct (R2 zy LZ) as (f & EF). now rewrite EF in H.
    + intros z EZ T. assert (LZ : lookup_Z (kpop kw "metallicity" (num 1)) = Raise KeyError).
      { rewrite EZ. unfold lookup_Z, num. destruct (table_get zams_table z) eqn:G; [|reflexivity]. exfalso. apply (T r0). now apply table_in. }
      now rewrite (R KeyError LZ) in H.
  - intros I m M NP. assert (r = Raise ValueError); [|now rewrite H0 in H].
    unfold r, find_defaults. rewrite MM. unfold kpop. rewrite M. cbn [In] in I.
    destruct I as [<- | [<- | [<- | []]]]; cbn [existsb CO_states String.eqb Ascii.eqb Bool.eqb orb CO_log_R num]; unfold CO_radius; (destruct (Rle_dec m 0); [reflexivity|lra]).
  - intros I M. assert (r = Raise TypeError); [|now rewrite H0 in H].
    unfold r, find_defaults. rewrite MM. unfold kpop. rewrite M. cbn [In] in I. destruct I as [<- | [<- | [<- | []]]]; reflexivity.
  - intros I m M P N. assert (exists f, r = Ok f); [|destruct H0 as (f & EF); now rewrite EF in H].
    unfold r, find_defaults. destruct (infer_spec (kdel kw "metallicity") m P) as (st' & EI & _).
    { now rewrite kget_no_Z. }
    { intros k K. unfold numeric. rewrite kget_no_Z; [now apply N|]. cbn [In] in K. destruct K as [<- | [<- | [<- | [<- | []]]]]; discriminate. }
    rewrite EI. rewrite MM. unfold kpop at 1. rewrite M. cbn [In] in I.
    destruct I as [<- | [<- | [<- | []]]]; cbn [existsb CO_states String.eqb Ascii.eqb Bool.eqb orb CO_log_R num]; unfold CO_radius; (destruct (Rle_dec m 0); [lra|]); cbn [String.eqb Ascii.eqb Bool.eqb rbind]; now eexists.
Qed.
Print Assumptions C155_refuses.

(** ** Cases and exceptions *)
Definition cst (st : string) (m : R) : kwargs := [("state", Txt st); ("mass", num m)].
Lemma cst_usual st m : usual BinaryModel.STARPROPERTIES (cst st m).
Proof.
  intros q I. unfold cst, kget. cbn [dget].
  destruct (String.eqb_spec (q ++ "_history") "state") as [E | _]; [assert (T := hist_in q); unfold hist in T; rewrite E in T; discriminate|].
  destruct (String.eqb_spec (q ++ "_history") "mass") as [E | _]; [assert (T := hist_in q); unfold hist in T; rewrite E in T; discriminate|reflexivity].
Qed.
Lemma cst_compact st m : In st ["WD"; "NS"; "BH"] -> 0 < m -> exists o, SingleStar (cst st m) = Ok o /\ exists st', remnant m False st' /\ o "state" = Some (Txt st') /\
  exists r, CO_radius m st = Ok r /\ o "log_R" = Some (num (ln r / ln 10)).
Proof.
  intros I P. assert (NU : forall k, In k ["surface_h1"; "center_h1"; "center_he4"; "center_c12"] -> numeric (cst st m) k).
  { intros k K. left. cbn [In] in K. destruct K as [<- | [<- | [<- | [<- | []]]]]; reflexivity. }
  destruct (C155_refuses (cst st m) st eq_refl eq_refl) as (_ & _ & _ & A). destruct (A I m eq_refl P NU) as (o & EO). exists o. split; [exact EO|].
  destruct (C155_compact (cst st m) o st m EO (cst_usual st m) I eq_refl eq_refl P NU) as (st' & RM & S & _ & L). exists st'. split.
  - apply (remnant_iff m (leftovers (cst st m))); [|exact RM]. split; [|tauto]. intros (k & x & K & G & _). cbn [In] in K.
    destruct K as [<- | [<- | [<- | [<- | []]]]]; discriminate.
  - split; [exact S|]. exact (L eq_refl).
Qed.
(** A star said to be a neutron star of a hundred solar masses is stored as a black hole, with the radius of a neutron star. *)
Theorem C155_radius_refuted :
  exists kw o r r', SingleStar kw = Ok o /\ o "state" = Some (Txt "BH") /\ o "log_R" = Some (num (ln r / ln 10)) /\
  CO_radius 100 "NS" = Ok r /\ CO_radius 100 "BH" = Ok r' /\ r < r' /\ o "mass" = Some (num 100).
Proof.
  destruct (cst_compact "NS" 100) as (o & EO & st' & RM & S & r & ER & L); [cbn [In]; tauto|lra|].
  assert (st' = "BH") by (apply (remnant_fun 100 False _ _ RM); constructor; lra). subst st'.
  exists (cst "NS" 100), o, r. unfold CO_radius in ER |- *. destruct (Rle_dec 100 0); [lra|]. cbn [String.eqb Ascii.eqb Bool.eqb] in *.
  exists (Schwarzschild_Radius 100). split; [exact EO|]. split; [exact S|]. split; [exact L|]. split; [exact ER|]. split; [reflexivity|]. split.
  - assert (r = 12.5e5 / Rsun) by congruence. subst r. unfold Schwarzschild_Radius. assert (0 < Rsun) by (unfold Rsun; lra). assert (0 < clight) by (unfold clight; lra).
    apply Rmult_lt_reg_r with (clight ^ 2 * Rsun); [apply Rmult_lt_0_compat; [now apply pow_lt|assumption]|].
    replace (12.5e5 / Rsun * (clight ^ 2 * Rsun)) with (12.5e5 * clight ^ 2) by (field; lra).
    replace (2 * standard_cgrav * 100 * Msun / (clight ^ 2 * Rsun) * (clight ^ 2 * Rsun)) with (2 * standard_cgrav * 100 * Msun) by (field; lra).
    unfold clight, standard_cgrav, Msun. lra.
  - apply (C155_given _ _ EO (cst_usual _ _) "mass"); [prop_in|reflexivity|]. intros (K & _). discriminate.
Qed.
Print Assumptions C155_radius_refuted.
(** A white dwarf of 1.2 solar masses becomes a neutron star if nothing is known about its composition. *)
Theorem C155_white_dwarf_refuted :
  exists kw o, kget kw "state" = Some (Txt "WD") /\ SingleStar kw = Ok o /\ o "mass" = Some (num 1.2) /\ o "state" = Some (Txt "NS").
Proof.
  destruct (cst_compact "WD" 1.2) as (o & EO & st' & RM & S & _); [cbn [In]; tauto|lra|].
  assert (st' = "NS") by (apply (remnant_fun 1.2 False _ _ RM); constructor; [lra|tauto]). subst st'.
  exists (cst "WD" 1.2), o. split; [reflexivity|]. split; [exact EO|]. split; [|exact S].
  apply (C155_given _ _ EO (cst_usual _ _) "mass"); [prop_in|reflexivity|]. intros (K & _). discriminate.
Qed.
Print Assumptions C155_white_dwarf_refuted.
(** A star without a state gets the composition of one on the zero-age main sequence, but its state is an empty text. *)
Theorem C155_no_state :
  forall kw o, SingleStar kw = Ok o -> usual BinaryModel.STARPROPERTIES kw -> kget kw "state" = None -> o "state" = Some (Txt "").
Proof.
  intros kw o E U N. destruct (living_parts kw o "H-rich_Core_H_burning" E U) as (kw2 & f & EK & EF & P & _); [unfold kpop; now rewrite N|reflexivity|].
  rewrite (P "state"); [reflexivity|prop_in|discriminate|exact N].
Qed.
Print Assumptions C155_no_state.
Example C155_case :
  exists o, SingleStar [("metallicity", num 0.1); ("state", Txt "stripped_He_Core_He_burning"); ("mass", num 20); ("natal_kick_velocity", num 100)] = Ok o /\
  o "mass_history" = Some (Lst [num 20]) /\ o "metallicity" = Some (num 0.1) /\ o "center_h1" = Some (num 0.000001) /\ o "he_core_mass" = Some (num 20) /\
  o "log_R" = Some (num 0) /\ o "center_he4" = Some (num (0.999999 - 0.1 * 0.0142)).
Proof.
  set (kw := [("metallicity", num 0.1); ("state", Txt "stripped_He_Core_He_burning"); ("mass", num 20); ("natal_kick_velocity", num 100)]).
  assert (T : In (0.1, 0.2511) zams_table) by (cbn [zams_table In]; tauto).
  destruct (C155_refuses kw "stripped_He_Core_He_burning" eq_refl eq_refl) as (A & _).
  destruct A as (A & _); [cbn [In]; intros [K | [K | [K | [K | []]]]]; discriminate|]. destruct A as (_ & A).
  destruct A as (o & EO); [exists 0.1, 0.2511; now split|]. exists o. split; [exact EO|].
  assert (U : usual BinaryModel.STARPROPERTIES kw).
  { intros q I. unfold kw, kget. cbn [dget]. assert (Q := hist_in q). unfold hist in Q.
    repeat match goal with |- context [String.eqb ?a ?b] => destruct (String.eqb_spec a b) as [E | _]; [rewrite E in Q; discriminate|] end. reflexivity. }
  destruct (C155_given kw o EO U "mass" (num 20)) as (_ & M); [prop_in|reflexivity|intros (K & _); discriminate|]. split; [exact M|].
  destruct (C155_given kw o EO U "metallicity" (num 0.1)) as (MZ & _); [prop_in|reflexivity|intros (K & _); discriminate|]. split; [exact MZ|].
  destruct (C155_defaults kw o Stripped Core_He 0.1 0.2511 EO U eq_refl eq_refl T) with (X := 0.000001) (He := 0.999999 - 0.1 * 0.0142) (r := 0) (core := true) as (D1 & D2 & D3 & D4);
    [|reflexivity|].
  - intros k K. cbn [In] in K. destruct K as [<- | [<- | [<- | [<- | []]]]]; reflexivity.
  - repeat split; assumption.
Qed.

(** A black hole: cores without mass; a tracer with history, a fallback fraction without *)
Example C155_rest_case :
  exists o, SingleStar [("state", Txt "BH"); ("mass", num 20); ("f_fb", num 1); ("tracer", num 3)] = Ok o /\
  o "co_core_mass" = Some (num 0) /\ o "total_moment_of_inertia" = Some nan /\ o "f_fb" = Some (num 1) /\ o "f_fb_history" = None /\ o "tracer_history" = Some (Lst [num 3]).
Proof.
  set (kw := [("state", Txt "BH"); ("mass", num 20); ("f_fb", num 1); ("tracer", num 3)]).
  destruct (C155_refuses kw "BH" eq_refl eq_refl) as (_ & _ & _ & A). destruct (A ltac:(cbn; auto) 20 eq_refl ltac:(lra)) as (o & EO).
  { intros k K. left. cbn [In] in K. destruct K as [<- | [<- | [<- | [<- | []]]]]; reflexivity. }
  exists o. split; [exact EO|].
  assert (U : usual BinaryModel.STARPROPERTIES kw).
  { intros q I. unfold kw, kget. cbn [dget]. assert (Q := hist_in q). unfold hist in Q.
    repeat match goal with |- context [String.eqb ?a ?b] => destruct (String.eqb_spec a b) as [E | _]; [rewrite E in Q; discriminate|] end. reflexivity. }
  assert (R := C155_rest kw o "BH" EO U eq_refl).
  destruct (R "co_core_mass") as (R1 & _); [prop_in|cbn; intuition discriminate|reflexivity|]. split; [apply R1; cbn; auto|].
  destruct (R "total_moment_of_inertia") as (_ & R2); [prop_in|cbn; intuition discriminate|reflexivity|]. split; [apply R2; left; cbn; intuition discriminate|].
  assert (PL : forall q, In q (map fst kw) -> forall q', q <> (q' ++ "_history")%string).
  { intros q I q' ->. assert (T := hist_in q'). unfold hist in T. cbn [kw map fst In] in I. destruct I as [I | [I | [I | [I | []]]]]; rewrite <- I in T; discriminate. }
  assert (N : NoDup (map fst kw)) by (cbn; repeat constructor; cbn; intuition discriminate).
  destruct (C155_extra kw o "f_fb" (num 1) EO N PL eq_refl eq_refl) as (X1 & X2 & _); [cbn; intuition discriminate|]. split; [exact X1|].
  split; [apply X2; cbn; auto 12|].
  destruct (C155_extra kw o "tracer" (num 3) EO N PL eq_refl eq_refl) as (_ & _ & X3); [cbn; intuition discriminate|]. apply X3. cbn. intuition discriminate.
Qed.

Example C155_kick_case :
  SingleStar [("natal_kick_array", Lst [num 1; num 2; num 3])] = Raise IndexError /\ SingleStar [("natal_kick_array", num 1)] = Raise TypeError /\
  exists o, SingleStar [("state", Txt "massless_remnant"); ("natal_kick_array", Lst [num 1; num 2; num 3; num 4])] = Ok o /\ o "natal_kick_polar_angle" = Some (num 3).
Proof.
  split; [reflexivity|]. split; [reflexivity|]. eexists. split; [reflexivity|]. vm_compute. reflexivity.
Qed.

(** ** C156: binaries *)
Lemma binary_parts s1 s2 kw b : BinaryStar (Some s1) (Some s2) kw = Ok b -> usual BinaryModel.BINARYPROPERTIES kw ->
  exists o1 o2, complete_orbit o1 s1 s2 = Ok o2 /\ b_star1 b = s1 /\ b_star2 b = s2 /\
  (forall p, In p BinaryModel.BINARYPROPERTIES -> o1 p = Some (kpop kw p (b_default p)) /\ o1 (hist p) = Some (Lst [kpop kw p (b_default p)])) /\
  (forall p w, In p BinaryModel.BINARYPROPERTIES -> o2 p = Some w -> b_attrs b p = Some w) /\
  (forall p w, In p BinaryModel.BINARYPROPERTIES -> o2 (hist p) = Some w -> b_attrs b (hist p) = Some w).
Proof.
  intros E U. unfold BinaryStar in E. cbn [rbind] in E. destruct (fold_left _ _ _) as (o, kw') eqn:EL.
  destruct (binary_loop _ _ _ _ _ binary_nodup binary_plain EL) as (A & B & C).
  destruct (complete_orbit _ s1 s2) as [o2|] eqn:EC; [|discriminate]. cbn [rbind] in E.
  match type of E with Ok ?t = _ => assert (W : b = t) by congruence end. subst b. cbn [b_attrs b_star1 b_star2].
  exists (fold_left set_b_extra kw' o), o2. split; [exact EC|]. split; [reflexivity|]. split; [reflexivity|].
  assert (N1 : forall q, In q BinaryModel.BINARYPROPERTIES -> kget kw' q = None).
  { intros q Q. rewrite A. destruct (in_dec string_dec q BinaryModel.BINARYPROPERTIES); [reflexivity|contradiction]. }
  split; [|split].
  - intros p I. destruct (C p I) as (C1 & C2). split.
    + rewrite b_extras_keep; [exact C1|exact (N1 p I)|]. intros q _. exact (plain_hist BinaryModel.BINARYPROPERTIES p q binary_plain I).
    + rewrite b_extras_keep; [exact C2| |].
      * rewrite A. destruct (in_dec string_dec (hist p) BinaryModel.BINARYPROPERTIES) as [J | _]; [reflexivity|]. exact (U p I).
      * intros q Q K. apply hist_inj in K. subst q. apply Q. exact (N1 p I).
  - intros p w I K. apply b_later_keep; [now left|exact K].
  - intros p w I K. apply b_later_keep; [right; exists p; split; [exact I|reflexivity]|exact K].
Qed.
Ltac bprop_in := unfold BinaryModel.BINARYPROPERTIES; cbn [In]; tauto.
Definition known (v : val) : Prop := v <> Nil /\ v <> Num None.
Lemma notna_known v : notna v = true <-> known v.
Proof. destruct v as [s | [x|] | | l | n]; cbn; unfold known; split; intros H; try reflexivity; try discriminate; try (split; discriminate); destruct H; congruence. Qed.
Lemma notna_not v : notna v = false <-> v = Nil \/ v = Num None.
Proof. destruct v as [s | [x|] | | l | n]; cbn; split; intros H; try reflexivity; try discriminate; try tauto; destruct H; discriminate. Qed.

(** What is given is stored with a history of one entry; stars are those given; only the separation or the period may be added. *)
Theorem C156_given :
  forall s1 s2 kw b, BinaryStar (Some s1) (Some s2) kw = Ok b -> usual BinaryModel.BINARYPROPERTIES kw ->
  b_star1 b = s1 /\ b_star2 b = s2 /\
  (forall p v, In p BinaryModel.BINARYPROPERTIES -> kget kw p = Some v -> known v -> b_attrs b p = Some v /\ b_attrs b (p ++ "_history")%string = Some (Lst [v])) /\
  (forall p, In p BinaryModel.BINARYPROPERTIES -> exists v, b_attrs b p = Some v /\ b_attrs b (p ++ "_history")%string = Some (Lst [v])).
Proof.
  intros s1 s2 kw b E U. destruct (binary_parts s1 s2 kw b E U) as (o1 & o2 & EC & B1 & B2 & P & K1 & K2). split; [exact B1|]. split; [exact B2|].
  assert (G : forall p, In p BinaryModel.BINARYPROPERTIES ->
     (o2 p = o1 p /\ o2 (hist p) = o1 (hist p)) \/ ((p = "separation" \/ p = "orbital_period") /\ notna (attr o1 p) = false /\ exists v, o2 p = Some v /\ o2 (hist p) = Some (Lst [v]))).
  { intros p I. unfold complete_orbit in EC.
    assert (SET : forall k v, In k BinaryModel.BINARYPROPERTIES -> (k = "separation" \/ k = "orbital_period") -> notna (attr o1 k) = false -> Ok (setattr (setattr o1 k v) (hist k) (Lst [v])) = Ok o2 ->
      (o2 p = o1 p /\ o2 (hist p) = o1 (hist p)) \/ ((p = "separation" \/ p = "orbital_period") /\ notna (attr o1 p) = false /\ exists v, o2 p = Some v /\ o2 (hist p) = Some (Lst [v]))).
    { intros k v IK KK NK H. match type of H with Ok ?t = _ => assert (W : o2 = t) by congruence end. subst o2. destruct (string_dec p k) as [-> | NP].
      - right. split; [exact KK|]. split; [exact NK|]. exists v. split; [|apply set_same].
        rewrite set_other by (exact (plain_hist BinaryModel.BINARYPROPERTIES k k binary_plain IK)). apply set_same.
      - left. split; rewrite !set_other; trivial.
        + exact (plain_hist BinaryModel.BINARYPROPERTIES p k binary_plain I).
        + intros K. exact (plain_hist BinaryModel.BINARYPROPERTIES k p binary_plain IK (eq_sym K)).
        + intros K. apply hist_inj in K. contradiction. }
    destruct (notna (attr s1 "mass") && notna (attr s2 "mass")); [|left; assert (o2 = o1) by congruence; now subst].
    destruct (notna (attr o1 "separation")) eqn:N1; destruct (notna (attr o1 "orbital_period")) eqn:N2; cbn [negb andb] in EC;
      try (left; assert (o2 = o1) by congruence; subst; split; reflexivity).
    - destruct (attr o1 "separation") as [s | [x|] | | l | n]; try discriminate. destruct (attr s1 "mass") as [s | [y|] | | l | n]; try discriminate.
      destruct (attr s2 "mass") as [s | [z|] | | l | n]; try discriminate. eapply (SET "orbital_period"); [bprop_in|now right|exact N2|exact EC].
    - destruct (attr o1 "orbital_period") as [s | [x|] | | l | n]; try discriminate. destruct (attr s1 "mass") as [s | [y|] | | l | n]; try discriminate.
      destruct (attr s2 "mass") as [s | [z|] | | l | n]; try discriminate. eapply (SET "separation"); [bprop_in|now left|exact N1|exact EC]. }
  split.
  - intros p v I V N. destruct (P p I) as (P1 & P2). unfold kpop in P1, P2. rewrite V in P1, P2. destruct (G p I) as [(G1 & G2) | (_ & NA & _)].
    + split; [apply K1|apply K2]; try exact I; congruence.
    + apply notna_known in N. unfold attr in NA. rewrite P1 in NA. congruence.
  - intros p I. destruct (P p I) as (P1 & P2). destruct (G p I) as [(G1 & G2) | (_ & _ & v & G1 & G2)].
    + eexists. split; [apply K1|apply K2]; try exact I; [rewrite G1; exact P1|rewrite G2; exact P2].
    + exists v. split; [apply K1|apply K2]; assumption.
Qed.
Print Assumptions C156_given.
(** If one of separation and period is given the other follows from Kepler's third law; if both or none is given, or a mass is unknown, nothing is
    added. *)
Theorem C156_orbit :
  forall s1 s2 kw b, BinaryStar (Some s1) (Some s2) kw = Ok b -> usual BinaryModel.BINARYPROPERTIES kw ->
  (forall m1 m2 P, s1 "mass" = Some (num m1) -> s2 "mass" = Some (num m2) -> 0 < m1 -> 0 < m2 -> 0 < P ->
     kget kw "orbital_period" = Some (num P) -> kget kw "separation" = None \/ kget kw "separation" = Some Nil \/ kget kw "separation" = Some (Num None) ->
     exists a, b_attrs b "separation" = Some (num a) /\ b_attrs b "separation_history" = Some (Lst [num a]) /\ 0 < a /\
     4 * 3.1415926535897932384626433832795028841971693993751 ^ 2 * (a * 6.9598e10) ^ 3 = 6.67428e-8 * ((m1 + m2) * 1.9892e33) * (P * 86400) ^ 2) /\
  (forall m1 m2 a, s1 "mass" = Some (num m1) -> s2 "mass" = Some (num m2) -> 0 < m1 -> 0 < m2 -> 0 < a ->
     kget kw "separation" = Some (num a) -> kget kw "orbital_period" = None \/ kget kw "orbital_period" = Some Nil \/ kget kw "orbital_period" = Some (Num None) ->
     exists P, b_attrs b "orbital_period" = Some (num P) /\ b_attrs b "orbital_period_history" = Some (Lst [num P]) /\ 0 < P /\ (P / 365.25) ^ 2 * (m1 + m2) = (a / 214.95) ^ 3) /\
  (forall p, p = "separation" \/ p = "orbital_period" -> kget kw p = None ->
     (s1 "mass" = Some (Num None) \/ s2 "mass" = Some (Num None) \/ (kget kw "separation" = None /\ kget kw "orbital_period" = None)) -> b_attrs b p = Some Nil).
Proof.
  intros s1 s2 kw b E U. destruct (binary_parts s1 s2 kw b E U) as (o1 & o2 & EC & B1 & B2 & P & K1 & K2).
  destruct (P "separation" ltac:(bprop_in)) as (PS & PSH). destruct (P "orbital_period" ltac:(bprop_in)) as (PP & PPH).
  change (b_default "separation") with Nil in PS, PSH. change (b_default "orbital_period") with Nil in PP, PPH.
  split; [|split].
  - intros m1 m2 p M1 M2 H1 H2 HP GP GS. unfold complete_orbit, attr in EC. rewrite M1, M2, PS, PP in EC. unfold kpop in EC. rewrite GP in EC.
    assert (NS : notna (match kget kw "separation" with Some v => v | None => Nil end) = false) by (destruct GS as [-> | [-> | ->]]; reflexivity).
    rewrite NS in EC. cbn [notna num negb andb] in EC. unfold num in EC. cbn iota in EC.
    match type of EC with Ok ?t = _ => assert (W : o2 = t) by congruence end. destruct (proj1 (C17_laws m1 m2 H1 H2) p HP) as (A & L).
    exists (orbital_separation_from_period p m1 m2). split; [|split; [|split; [exact A|exact L]]].
    + apply K1; [bprop_in|]. rewrite W. rewrite set_other by discriminate. apply set_same.
    + apply (K2 "separation"); [bprop_in|]. rewrite W. apply set_same.
  - intros m1 m2 a M1 M2 H1 H2 HA GS GP. unfold complete_orbit, attr in EC. rewrite M1, M2, PS, PP in EC. unfold kpop in EC. rewrite GS in EC.
    assert (NS : notna (match kget kw "orbital_period" with Some v => v | None => Nil end) = false) by (destruct GP as [-> | [-> | ->]]; reflexivity).
    rewrite NS in EC. cbn [notna num negb andb] in EC. unfold num in EC. cbn iota in EC.
    match type of EC with Ok ?t = _ => assert (W : o2 = t) by congruence end. destruct (proj2 (C17_laws m1 m2 H1 H2) a HA) as (A & L).
    exists (orbital_period_from_separation a m1 m2). split; [|split; [|split; [exact A|exact L]]].
    + apply K1; [bprop_in|]. rewrite W. rewrite set_other by discriminate. apply set_same.
    + apply (K2 "orbital_period"); [bprop_in|]. rewrite W. apply set_same.
  - intros p PQ N H. assert (Q : o2 = o1).
    { unfold complete_orbit, attr in EC. destruct H as [H | [H | (H1 & H2)]].
      - rewrite H in EC. cbn [notna andb] in EC. congruence.
      - rewrite H in EC. cbn [notna] in EC. rewrite andb_false_r in EC. congruence.
      - rewrite PS, PP in EC. unfold kpop in EC. rewrite H1, H2 in EC. cbn [notna negb andb] in EC.
        destruct (notna (match s1 "mass" with Some v => v | None => Nil end) && notna (match s2 "mass" with Some v => v | None => Nil end)); congruence. }
    subst o2. apply K1; [destruct PQ as [-> | ->]; bprop_in|]. destruct PQ as [-> | ->]; [rewrite PS|rewrite PP]; unfold kpop; now rewrite N.
Qed.
Print Assumptions C156_orbit.
Example C156_case :
  exists s b, BinaryStar (Some s) (Some s) [("orbital_period", num 10); ("eccentricity", num 0.5)] = Ok b /\ s "mass" = Some (num 10) /\
  usual BinaryModel.BINARYPROPERTIES [("orbital_period", num 10); ("eccentricity", num 0.5)] /\ b_attrs b "eccentricity_history" = Some (Lst [num 0.5]).
Proof.
  set (s := setattr no_attrs "mass" (num 10)). set (kw := [("orbital_period", num 10); ("eccentricity", num 0.5)]).
  assert (U : usual BinaryModel.BINARYPROPERTIES kw).
  { intros q I. unfold kw, kget. cbn [dget]. assert (Q := hist_in q). unfold hist in Q.
    repeat match goal with |- context [String.eqb ?a ?b] => destruct (String.eqb_spec a b) as [E | _]; [rewrite E in Q; discriminate|] end. reflexivity. }
  assert (X : exists b, BinaryStar (Some s) (Some s) kw = Ok b).
  { unfold BinaryStar. cbn [rbind]. destruct (fold_left _ _ _) as (o, kw') eqn:EL.
    assert (H : forall o, attr o "orbital_period" = num 10 -> exists o', complete_orbit o s s = Ok o').
    { intros o' EO. unfold complete_orbit. change (attr s "mass") with (num 10). rewrite EO. cbn [notna num andb negb].
      destruct (notna (attr o' "separation")); cbn [negb andb]; eexists; reflexivity. }
    destruct (H (fold_left set_b_extra kw' o)) as (o' & EC); [|rewrite EC; cbn [rbind]; now eexists].
    destruct (binary_loop _ _ _ _ _ binary_nodup binary_plain EL) as (A & B & C). unfold attr. rewrite b_extras_keep.
    - destruct (C "orbital_period" ltac:(bprop_in)) as (-> & _). reflexivity.
    - rewrite A. destruct (in_dec string_dec "orbital_period" BinaryModel.BINARYPROPERTIES) as [_ | J]; [reflexivity|elim J; bprop_in].
    - intros q _ K. assert (T := hist_in q). rewrite <- K in T. discriminate. }
  destruct X as (b & EB). exists s, b. split; [exact EB|]. split; [reflexivity|]. split; [exact U|].
  destruct (C156_given s s kw b EB U) as (_ & _ & G & _). apply (G "eccentricity" (num 0.5)); [bprop_in|reflexivity|]. split; discriminate.
Qed.
