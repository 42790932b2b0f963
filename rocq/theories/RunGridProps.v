(** C184 to C187: the running of a point of a fixed grid *)
From Coq Require Import String List Bool ZArith QArith Qround Lia.
From Verif Require Import PyBase PyStr InlistModel InlistProps RunGridModel FromRunProofs.
Import ListNotations.
Open Scope Q_scope.
Open Scope list_scope.
Open Scope string_scope.

(** ** Specification *)

(** What MESA is to read for a value: whole numbers as integers, other numbers in scientific notation, truth values as logicals *)
Definition shows (v : RunGridModel.value) (s : shown) : Prop :=
  match v with
  | VFloat (Some q) => (exists z, q == inject_Z z /\ s = Int z) \/ ((forall z, ~ q == inject_Z z) /\ s = Sci (Some q))
  | VFloat None => s = Sci None
  | VBool b => s = Logical b
  | VInt _ | VText _ => s = AsIs v
  end.
(** A value as a number *)
Definition number (v : RunGridModel.value) (x : option Q) : Prop :=
  match v with VFloat y => x = y | VInt z => x = Some (inject_Z z) | VBool b => x = Some (if b then 1 else 0) | VText _ => False end.
(** The file which is to hold the values for a list of parameters, and its template *)
Definition file_of (s : slot) : string :=
  match s with BC | BJ => "inlist_grid_points" | S1C => "inlist_grid_star1_binary_controls" | S1J => "inlist_grid_star1_binary_job"
             | S2C => "inlist_grid_star2_binary_controls" | S2J => "inlist_grid_star2_binary_job" end.
Definition template_of (a : args) (s : slot) : string := match s with BC | BJ => binary_project a | S1C | S1J => binary_inlist1 a | S2C | S2J => binary_inlist2 a end.
Definition delivered (fs : files) (s : slot) (k : string) (x : shown) : Prop :=
  exists l kvs, In (file_of s, Blocks l) fs /\ In (namelist s, kvs) l /\ In (k, x) kvs.
(** The template gives a value which counts to the parameter *)
Definition known (read : string -> list string) (a : args) (s : slot) (k : string) : Prop :=
  exists d t, clean_inlist_file None (read (template_of a s)) = Ok d /\ InlistProps.value d (Some (namelist s)) k t.
Definition table (g : grid) : Prop := NoDup (columns g) /\ forall r, In r (rows g) -> map fst r = columns g.
Definition binary_run (e : event) : Prop := out e = OutBinary.

(** ** Lemmas *)

Lemma show_shows v s : shows v s <-> s = show v.
Proof.
  destruct v as [[q|]|z|b|t]; cbn; try tauto. unfold is_integer. destruct (Qeq_bool q (inject_Z (Qfloor q))) eqn:E.
  - apply Qeq_bool_eq in E. split.
    + intros [(z & Q & ->)|[N _]]; [|exfalso; now apply (N (Qfloor q))]. f_equal. rewrite Q. symmetry. apply Qfloor_Z.
    + intros ->. left. now exists (Qfloor q).
  - split.
    + intros [(z & Q & ->)|[_ ->]]; [|reflexivity]. exfalso. apply Qeq_bool_neq in E. apply E. rewrite Q at 2. rewrite Qfloor_Z. exact Q.
    + intros ->. right. split; [|reflexivity]. intros z Q. apply Qeq_bool_neq in E. apply E. rewrite Q at 2. rewrite Qfloor_Z. exact Q.
Qed.
Lemma sci_number v s : sci v = Ok s <-> exists x, number v x /\ s = Sci x.
Proof.
  destruct v as [x|z|b|t]; cbn; split; try discriminate; try (intros H; eexists; split; [reflexivity|congruence]); intros (y & E & ->); subst; try reflexivity; destruct E.
Qed.
(** Files *)
Definition fresh (w : files) : Prop := NoDup (dkeys w) /\ forall n, In n (dkeys w) -> n = "inlist" \/ n = "inlist_grid_points".
Lemma write_keys w n c m : In m (dkeys (write w n c)) <-> In m (dkeys w) \/ m = n.
Proof.
  unfold write. rewrite (dkeys_dset String.eqb_spec). unfold dmem. destruct (dget String.eqb w n) as [x|] eqn:G.
  - split; [tauto|]. intros [H| ->]; [exact H|]. apply (dget_Some_in String.eqb_spec) in G. unfold dkeys. apply in_map_iff. now exists (n, x).
  - rewrite in_app_iff. cbn. intuition congruence.
Qed.
Lemma write_nodup w n c : NoDup (dkeys w) -> NoDup (dkeys (write w n c)).
Proof. apply (NoDup_dset String.eqb_spec). Qed.
Lemma write_get w n c m : dget String.eqb (write w n c) m = if String.eqb m n then Some c else dget String.eqb w m.
Proof. apply (dget_dset String.eqb_spec). Qed.
Lemma star_get w f n d m : dget String.eqb (write_star w f n d) m = match d with [] => dget String.eqb w m | _ => if String.eqb m f then Some (Blocks [block n d]) else dget String.eqb w m end.
Proof. destruct d; [reflexivity|]. apply write_get. Qed.
Lemma star_nodup w f n d : NoDup (dkeys w) -> NoDup (dkeys (write_star w f n d)).
Proof. destruct d; [tauto|]. apply write_nodup. Qed.
Lemma fresh_write w n c : fresh w -> n = "inlist" \/ n = "inlist_grid_points" -> fresh (write w n c).
Proof. intros [A B] N. split; [now apply write_nodup|]. intros m M. apply write_keys in M as [M| ->]; auto. Qed.
Lemma fresh_star m p z b w w' : create_star_formation m p z b w = Ok w' -> fresh w -> fresh w'.
Proof.
  unfold create_star_formation. intros H F. apply bind_ok in H as (x & _ & H). destruct z as [z|].
  - apply bind_ok in H as (y & _ & H). assert (w' = _) by (symmetry; injection H; intros E; exact E). subst w'. apply fresh_write; [apply fresh_write; [exact F|tauto]|tauto].
  - assert (w' = _) by (symmetry; injection H; intros E; exact E). subst w'. apply fresh_write; [apply fresh_write; [exact F|tauto]|tauto].
Qed.
Lemma fresh_formation x mass star params : forall ps i w evs w', formation x mass star params i ps w = (evs, Ok w') -> fresh w -> fresh w'.
Proof.
  induction ps as [|p ps IH]; intros i w evs w' H F; cbn [formation] in H; [congruence|].
  destruct (match i with O => _ | S O => _ | _ => _ end) as [w1|] eqn:E; [|congruence].
  assert (F1 : fresh w1).
  { destruct i as [|[|i]].
    - apply bind_ok in E as (m & _ & E). now apply (fresh_star _ _ _ _ _ _ E).
    - apply bind_ok in E as (m & _ & E). apply bind_ok in E as (z & _ & E). now apply (fresh_star _ _ _ _ _ _ E).
    - congruence. }
  destruct (formation x mass star params (S i) ps w1) as [evs1 r] eqn:R. cbn [fst snd] in H. apply (IH (S i) w1 evs1 w'); [|exact F1]. rewrite R. congruence.
Qed.
Lemma fresh_nil : fresh [].
Proof. split; [constructor|intros n []]. Qed.
Lemma fresh_of f mass star params w evs w' : formation_of f mass star params w = (evs, Ok w') -> fresh w -> fresh w'.
Proof. destruct f as [[x ps]|]; cbn; [apply fresh_formation|congruence]. Qed.
Lemma fresh_none w n : fresh w -> n <> "inlist" -> n <> "inlist_grid_points" -> dget String.eqb w n = None.
Proof. intros [_ B] A C. apply (dget_None_notin String.eqb_spec). intros I. destruct (B _ I); congruence. Qed.

Lemma binary_nodup ds p w : NoDup (dkeys w) -> NoDup (dkeys (create_binary_inlists ds p w)).
Proof. intros N. unfold create_binary_inlists. repeat apply star_nodup. now repeat apply write_nodup. Qed.
Lemma in_get (w : files) n c : NoDup (dkeys w) -> In (n, c) w <-> dget String.eqb w n = Some c.
Proof. intros N. split; [now apply (dget_in_nodup String.eqb_spec)|apply (dget_Some_in String.eqb_spec)]. Qed.
Lemma star_file ds p w s : fresh w -> s <> BC -> s <> BJ ->
  dget String.eqb (create_binary_inlists ds p w) (file_of s) = match ds s with [] => None | _ => Some (Blocks [block (namelist s) (ds s)]) end.
Proof.
  intros F A B. unfold create_binary_inlists. rewrite !star_get, !write_get.
  destruct s; try congruence; cbn [file_of namelist]; rewrite (fresh_none w _ F) by discriminate;
    destruct (ds S1C), (ds S2C), (ds S1J), (ds S2J); reflexivity.
Qed.
Lemma binary_delivered ds p w : fresh w -> forall s k x, delivered (create_binary_inlists ds p w) s k x <-> exists v, In (k, v) (ds s) /\ x = show v.
Proof.
  intros F s k x. assert (N : NoDup (dkeys (create_binary_inlists ds p w))) by (apply binary_nodup, F).
  assert (B : forall name d kvs, In (name, kvs) [block name d] -> (In (k, x) kvs <-> exists v, In (k, v) d /\ x = show v)).
  { intros name d kvs [E|[]]. unfold block in E. assert (kvs = map (fun kv => (fst kv, show (snd kv))) d) as -> by congruence. rewrite in_map_iff. split.
    - intros ([k' v] & E' & I). exists v. cbn in E'. split; [|congruence]. assert (k' = k) as -> by congruence. exact I.
    - intros (v & I & ->). now exists (k, v). }
  assert (BI : forall name d, In (name, map (fun kv => (fst kv, show (snd kv))) d) [block name d]) by (intros; now left).
  assert (STAR : forall s, s <> BC -> s <> BJ -> delivered (create_binary_inlists ds p w) s k x <-> exists v, In (k, v) (ds s) /\ x = show v).
  { clear s. intros s NC NJ. assert (G := star_file ds p w s F NC NJ). unfold delivered. split.
    - intros (l & kvs & I & J & K). apply (in_get _ _ _ N) in I. rewrite G in I. destruct (ds s) as [|y d]; [discriminate|].
      assert (l = [block (namelist s) (y :: d)]) as -> by congruence. now apply (B _ _ _ J).
    - intros (v & I & ->). destruct (ds s) as [|y d] eqn:D; [destruct I|]. eexists _, _. split; [apply (in_get _ _ _ N); exact G|].
      split; [apply BI|]. apply in_map_iff. exists (k, v). split; [reflexivity|exact I]. }
  destruct s; [| |apply STAR; discriminate..]; unfold delivered; cbn [file_of namelist].
  1,2: assert (G : forall c, In ("inlist_grid_points", c) (create_binary_inlists ds p w) <->
         c = Blocks (unless_empty (ds BC) [block (namelist BC) (ds BC)] ++ unless_empty (ds BJ) [block (namelist BJ) (ds BJ)])%list)
       by (intros c; rewrite (in_get _ _ _ N); unfold create_binary_inlists; rewrite !star_get; destruct (ds S1C), (ds S2C), (ds S1J), (ds S2J);
           rewrite ?write_get; cbn [String.eqb Ascii.eqb Bool.eqb]; split; congruence).
  1: { split.
       - intros (l & kvs & I & J & K). apply G in I. injection I as ->. apply in_app_or in J as [J|J].
         + destruct (ds BC) as [|y d] eqn:D; [destruct J|]. cbn [unless_empty] in J. now apply (B _ _ _ J).
         + destruct (ds BJ); [destruct J|]. destruct J as [J|[]]. discriminate.
       - intros (v & I & ->). eexists _, _. split; [apply G; reflexivity|]. split; [apply in_or_app; left; destruct (ds BC) eqn:D; [destruct I|]; cbn [unless_empty]; rewrite <- D; apply BI|].
         apply in_map_iff. exists (k, v). split; [reflexivity|exact I]. }
  1: { split.
       - intros (l & kvs & I & J & K). apply G in I. injection I as ->. apply in_app_or in J as [J|J].
         + destruct (ds BC); [destruct J|]. destruct J as [J|[]]. discriminate.
         + destruct (ds BJ) as [|y d] eqn:D; [destruct J|]. cbn [unless_empty] in J. now apply (B _ _ _ J).
       - intros (v & I & ->). eexists _, _. split; [apply G; reflexivity|]. split; [apply in_or_app; right; destruct (ds BJ) eqn:D; [destruct I|]; cbn [unless_empty]; rewrite <- D; apply BI|].
         apply in_map_iff. exists (k, v). split; [reflexivity|exact I]. }
Qed.
Lemma pick_in row names k v : NoDup (map fst row) -> In (k, v) (pick row names) <-> In (k, v) row /\ In k names.
Proof.
  intros N. unfold pick. rewrite in_flat_map. split.
  - intros (n & I & J). destruct (dget String.eqb row n) as [u|] eqn:G; [|destruct J]. destruct J as [E|[]]. assert (n = k) as -> by congruence. assert (u = v) as -> by congruence.
    split; [now apply (dget_Some_in String.eqb_spec)|exact I].
  - intros [I J]. exists k. split; [exact J|]. rewrite (dget_in_nodup String.eqb_spec row k v N I). now left.
Qed.
Lemma dmem_in {V} (d : list (string * V)) k : dmem String.eqb d k = true <-> exists v, In (k, v) d.
Proof.
  unfold dmem. destruct (dget String.eqb d k) as [v|] eqn:G.
  - split; [intros _; exists v; now apply (dget_Some_in String.eqb_spec)|reflexivity].
  - split; [discriminate|]. intros (v & I). apply (dget_None_notin String.eqb_spec) in G. exfalso. apply G. unfold dkeys. apply in_map_iff. now exists (k, v).
Qed.
Lemma clean_nodup sec lines d : clean_inlist_file sec lines = Ok d -> NoDup (dkeys d).
Proof.
  intros H. assert (F : Forall2 reads lines (map classify lines)) by (clear; induction lines; constructor; [now apply reads_classify|assumption]).
  destruct (headers (map classify lines)) as [|h hs] eqn:E.
  - destruct (C183_plain sec lines _ F E) as (kvs & C & _). rewrite C in H. assert (d = [(sec, kvs)]) as -> by congruence. cbn. constructor; [intros []|constructor].
  - destruct (C183_sections sec lines _ d F) as (N & _); [congruence|exact H|exact N].
Qed.
Lemma section_ok d k x : section d k = Ok x -> dget key_eqb d (Some k) = Some x.
Proof. unfold section. destruct (dget key_eqb d (Some k)); congruence. Qed.
Lemma templates_ok read a t : templates read a = Ok t -> forall s k, dmem String.eqb (t s) k = true <-> known read a s k.
Proof.
  unfold templates. intros H. apply bind_ok in H as (b & B & H). apply bind_ok in H as (d1 & D1 & H). apply bind_ok in H as (d2 & D2 & H).
  apply bind_ok in H as (bc & BC' & H). apply bind_ok in H as (bj & BJ' & H). apply bind_ok in H as (c1 & C1 & H). apply bind_ok in H as (j1 & J1 & H).
  apply bind_ok in H as (c2 & C2 & H). apply bind_ok in H as (j2 & J2 & H).
  apply section_ok in BC', BJ', C1, J1, C2, J2.
  assert (K : forall s d x, clean_inlist_file None (read (template_of a s)) = Ok d -> dget key_eqb d (Some (namelist s)) = Some x ->
    forall k, dmem String.eqb x k = true <-> known read a s k).
  { intros s d x C G k. rewrite dmem_in. unfold known. split.
    - intros (v & I). exists d, v. split; [exact C|]. exists x. split; [now apply (dget_Some_in key_eqb_spec)|exact I].
    - intros (d' & v & C' & (kvs & I & J)). assert (d' = d) as -> by congruence. apply (dget_in_nodup key_eqb_spec) in I; [|now apply (clean_nodup None (read (template_of a s)))].
      exists v. congruence. }
  assert (t = fun s => match s with BC => bc | BJ => bj | S1C => c1 | S1J => j1 | S2C => c2 | S2J => j2 end) as -> by congruence.
  intros [| | | | |]; (eapply K; [|]; [|cbn [namelist]; eassumption]); assumption.
Qed.
Lemma iloc_row g i row : iloc g (Some i) = Ok row -> py_nth (rows g) i = Some row.
Proof. cbn. destruct (py_nth (rows g) i); congruence. Qed.
Lemma py_nth_in {A} (l : list A) i x : py_nth l i = Some x -> In x l.
Proof. unfold py_nth. intros H. repeat match type of H with (if ?b then _ else _) = _ => destruct b end; try discriminate; now apply nth_error_In in H. Qed.
Lemma picked g t row : table g -> In row (rows g) -> forall k v, In (k, v) (pick row (grid_params g t)) <-> In (k, v) row /\ dmem String.eqb t k = true.
Proof.
  intros [N W] R k v. rewrite pick_in by (rewrite (W row R); exact N). unfold grid_params. rewrite filter_In. rewrite <- (W row R).
  split; [tauto|]. intros [I J]. repeat split; try assumption. apply in_map_iff. now exists (k, v).
Qed.
Lemma single_out x a params last : forall ps i w e, In e (fst (single x a params last i ps w)) -> exists j, out e = OutStar 1 j.
Proof.
  induction ps as [|p ps IH]; intros i w e; cbn [single]; [intros []|]. destruct (rbind _ _) as [w1|]; [|intros []]. cbn [fst].
  intros [<-|I]; [now exists i|]. apply (IH _ _ _ I).
Qed.
Lemma single_star_out read a g x ps e : In e (fst (single_star read a g x ps)) -> exists j, out e = OutStar 1 j.
Proof. unfold single_star. destruct (rbind _ _) as [params|]; [|intros []]. destruct (negb _); [intros []|]. apply single_out. Qed.
Definition slot_dicts (g : grid) (t : slot -> list (string * string)) (row : RunGridModel.dict) : slot -> RunGridModel.dict := fun s => pick row (grid_params g (t s)).
Lemma run_fixed_binary read a g evs r : run_fixed read a g = (evs, r) -> (exists e, In e evs /\ binary_run e) ->
  exists f1 f2 t i row, formation_args (star1_executable a) (star1_projects a) = Ok f1 /\ formation_args (star2_executable a) (star2_projects a) = Ok f2 /\
    templates read a = Ok t /\ grid_point_index a = Some i /\ py_nth (rows g) i = Some row /\
    run_grid_point a f1 f2 (chain (map (slot_dicts g t row) slots)) (slot_dicts g t row) = (evs, r).
Proof.
  unfold run_fixed. intros H (e & I & B).
  destruct (rbind _ _) as [[[f1 f2] t]|] eqn:E; [|exfalso; assert (evs = []) as -> by congruence; destruct I].
  apply bind_ok in E as (f1' & E1 & E). apply bind_ok in E as (f2' & E2 & E). apply bind_ok in E as (t' & E3 & E).
  assert (f1' = f1) as -> by congruence. assert (f2' = f2) as -> by congruence. assert (t' = t) as -> by congruence. clear E.
  assert (K : forall x ps, single_star read a g x ps <> (evs, r)).
  { intros x ps S. assert (J := single_star_out read a g x ps e). rewrite S in J. destruct (J I) as (j & J'). unfold binary_run in B. congruence. }
  assert (G : match grid_point_index a with
          | None => ([], Ok tt)
          | Some _ =>
              match iloc g (grid_point_index a) with
              | Raise e => ([], Raise e)
              | Ok row =>
                  let ds := fun s => pick row (grid_params g (t s)) in
                  run_grid_point a f1 f2 (chain (map ds slots)) ds
              end
          end = (evs, r)).
  { destruct f1 as [[x ps]|]; [|exact H]. destruct (grid_params g (t BC) ++ grid_params g (t BJ))%list; [exfalso; now apply (K x ps)|exact H]. }
  clear H. destruct (grid_point_index a) as [i|]; [|exfalso; assert (evs = []) as -> by congruence; destruct I].
  destruct (iloc g (Some i)) as [row|] eqn:L; [|exfalso; assert (evs = []) as -> by congruence; destruct I].
  exists f1, f2, t, i, row. repeat split; try assumption; try (now apply iloc_row).
Qed.
Lemma run_point_ok a f1 f2 params ds evs : run_grid_point a f1 f2 params ds = (evs, Ok tt) ->
  nameable params = true /\ exists e1 w1 e2 w2, formation_of f1 "m1" 1 params [] = (e1, Ok w1) /\ formation_of f2 "m2" 2 params w1 = (e2, Ok w2) /\
    evs = (e1 ++ e2 ++ [Ran (binary_executable a) OutBinary (create_binary_inlists ds (binary_project a) w2) (profiles_kept a) (photos_kept a) false])%list.
Proof.
  unfold run_grid_point. intros H. destruct (nameable params); [|discriminate]. split; [reflexivity|]. cbn [negb] in H.
  destruct (formation_of f1 "m1" 1 params []) as [e1 [w1|]] eqn:E1; cbn [fst snd] in H; [|discriminate].
  destruct (formation_of f2 "m2" 2 params w1) as [e2 [w2|]] eqn:E2; cbn [fst snd] in H; [|discriminate].
  exists e1, w1, e2, w2. repeat split; try assumption. congruence.
Qed.
Lemma formation_out x mass star params : forall ps i w e, In e (fst (formation x mass star params i ps w)) -> exists j, out e = OutStar star j.
Proof.
  induction ps as [|p ps IH]; intros i w e; cbn [formation]; [intros []|]. destruct (match i with O => _ | S O => _ | _ => _ end) as [w1|]; [|intros []]. cbn [fst].
  intros [<-|I]; [now exists i|]. apply (IH _ _ _ I).
Qed.
Lemma formation_of_out f mass star params w e : In e (fst (formation_of f mass star params w)) -> exists j, out e = OutStar star j.
Proof. destruct f as [[x ps]|]; cbn; [apply formation_out|intros []]. Qed.

(** ** C184 *)

(** The binary is run with just the values of the row whose columns the template knows, each in the file and list of its template, as MESA reads it; there is one such run *)
Theorem C184 : forall read a g evs i row e, table g -> run_fixed read a g = (evs, Ok tt) -> grid_point_index a = Some i -> py_nth (rows g) i = Some row ->
  In e evs -> binary_run e ->
  exe e = binary_executable a /\ In ("inlist", BinaryInlist (binary_project a)) (found e) /\ keep_profiles e = profiles_kept a /\ keep_photos e = photos_kept a /\ keep_work_dir e = false /\
  forall s k x, delivered (found e) s k x <-> exists v, In (k, v) row /\ shows v x /\ known read a s k.
Proof.
  intros read a g evs i row e T H I R M B. destruct (run_fixed_binary _ _ _ _ _ H) as (f1 & f2 & t & i' & row' & _ & _ & TM & I' & R' & P); [now exists e|].
  assert (i' = i) as -> by congruence. assert (row' = row) as -> by congruence. apply run_point_ok in P as (_ & e1 & w1 & e2 & w2 & E1 & E2 & ->).
  assert (F : fresh w2) by (eapply fresh_of; [exact E2|]; eapply fresh_of; [exact E1|apply fresh_nil]).
  apply in_app_or in M as [M|M]; [exfalso; assert (J := formation_of_out f1 "m1" 1 (chain (map (slot_dicts g t row) slots)) [] e); rewrite E1 in J; destruct (J M) as (j & Q); unfold binary_run in B; congruence|].
  apply in_app_or in M as [M|M]; [exfalso; assert (J := formation_of_out f2 "m2" 2 (chain (map (slot_dicts g t row) slots)) w1 e); rewrite E2 in J; destruct (J M) as (j & Q); unfold binary_run in B; congruence|].
  destruct M as [<-|[]]. cbn [exe found RunGridModel.keep_profiles keep_photos keep_work_dir]. split; [reflexivity|]. split.
  { apply in_get; [apply binary_nodup, F|]. unfold create_binary_inlists. rewrite !star_get, !write_get. destruct (slot_dicts g t row S1C), (slot_dicts g t row S2C), (slot_dicts g t row S1J), (slot_dicts g t row S2J); reflexivity. }
  split; [reflexivity|]. split; [reflexivity|]. split; [reflexivity|].
  intros s k x. rewrite (binary_delivered _ _ _ F). apply py_nth_in in R. unfold slot_dicts. split.
  - intros (v & V & ->). apply picked in V as [V K]; [|exact T|exact R]. exists v. split; [exact V|]. split; [now apply show_shows|]. now apply (templates_ok read a t TM).
  - intros (v & V & S & K). exists v. split; [|now apply show_shows]. apply picked; [exact T|exact R|]. split; [exact V|]. now apply (templates_ok read a t TM).
Qed.

(** ** C185 *)

Lemma dset_all_in {V} (l : list (string * V)) : forall d k v, dget String.eqb (dset_all String.eqb d l) k = Some v -> In (k, v) l \/ dget String.eqb d k = Some v.
Proof.
  unfold dset_all. induction l as [|[k0 v0] l IH]; intros d k v H; [now right|]. cbn [fold_left fst snd] in H. apply IH in H as [H|H]; [left; now right|].
  rewrite (dget_dset String.eqb_spec) in H. destruct (String.eqb_spec k k0) as [->|]; [left; left; congruence|now right].
Qed.
Lemma dset_all_has {V} (l : list (string * V)) : forall d k, (exists v, In (k, v) l) \/ (exists v, dget String.eqb d k = Some v) -> exists v, dget String.eqb (dset_all String.eqb d l) k = Some v.
Proof.
  unfold dset_all. induction l as [|[k0 v0] l IH]; intros d k H; [destruct H as [(v & [])|H]; exact H|]. cbn [fold_left fst snd]. apply IH.
  destruct H as [(v & [E|I])|(v & G)].
  - right. exists v0. rewrite (dget_dset String.eqb_spec). assert (k = k0) as -> by congruence. now rewrite String.eqb_refl.
  - left. now exists v.
  - right. rewrite (dget_dset String.eqb_spec). destruct (String.eqb k k0); eauto.
Qed.
Lemma item_chain g t row k v : table g -> In row (rows g) ->
  item (chain (map (slot_dicts g t row) slots)) k = Ok v <-> In (k, v) row /\ exists s, dmem String.eqb (t s) k = true.
Proof.
  intros T R. unfold item, chain. set (l := concat (rev (map (slot_dicts g t row) slots))).
  assert (L : forall k v, In (k, v) l <-> In (k, v) row /\ exists s, dmem String.eqb (t s) k = true).
  { intros k' v'. unfold l. rewrite in_concat. split.
    - intros (d & D & I). apply in_rev in D. apply in_map_iff in D as (s & <- & _). apply picked in I as [I M]; [|exact T|exact R]. split; [exact I|now exists s].
    - intros [I (s & M)]. exists (slot_dicts g t row s). split; [|now apply picked]. apply in_rev. rewrite rev_involutive. apply in_map. destruct s; cbn; tauto. }
  assert (U : forall k v v', In (k, v) row -> In (k, v') row -> v = v').
  { intros k' v1 v2 A B. destruct T as [N W]. assert (ND : NoDup (dkeys row)) by (unfold dkeys; rewrite (W row R); exact N).
    apply (dget_in_nodup String.eqb_spec) in A; [|exact ND]. apply (dget_in_nodup String.eqb_spec) in B; [|exact ND]. congruence. }
  split.
  - intros H. destruct (dget String.eqb (dset_all String.eqb [] l) k) as [u|] eqn:G; [|discriminate]. assert (u = v) as -> by congruence.
    apply dset_all_in in G as [G|G]; [now apply L|discriminate].
  - intros [I M]. destruct (dset_all_has l [] k) as (u & G); [left; exists v; apply L; now split|]. rewrite G. f_equal.
    apply dset_all_in in G as [G|G]; [|discriminate]. apply L in G as [G _]. apply (U k); assumption.
Qed.
(** The formation which is asked for: with an executable and templates, none of them "None" *)
Definition wanted (executable : option string) (projects : option (list string)) (f : option (string * list string)) : Prop :=
  exists l, projects = Some l /\ match f with Some (x, l') => executable = Some x /\ l' = l /\ ~ In "None" l | None => executable = None \/ In "None" l end.
Lemma formation_wanted x ps f : formation_args x ps = Ok f <-> wanted x ps f.
Proof.
  unfold formation_args, wanted. destruct ps as [l|]; [|split; [discriminate|intros (l & E & _); discriminate]].
  destruct (existsb (String.eqb "None") l) eqn:E.
  - assert (I : In "None" l) by (apply existsb_exists in E as (n & I & Q); apply String.eqb_eq in Q; now subst).
    split; [intros H; exists l; split; [reflexivity|]; assert (f = None) as -> by congruence; now right|]. intros (l' & Q & H). assert (l' = l) as -> by congruence.
    destruct f as [[y l'']|]; [|reflexivity]. tauto.
  - assert (I : ~ In "None" l) by (intros I; rewrite (proj2 (existsb_exists _ _)) in E; [discriminate|]; exists "None"; split; [exact I|reflexivity]).
    split.
    + intros H. exists l. split; [reflexivity|]. destruct x as [x|]; [assert (f = Some (x, l)) as -> by congruence; tauto|assert (f = None) as -> by congruence; tauto].
    + intros (l' & Q & H). assert (l' = l) as -> by congruence. destruct f as [[y l'']|]; [destruct H as (-> & -> & _); reflexivity|]. destruct H as [->|H]; [reflexivity|tauto].
Qed.
(** A number of the row under a name *)
Definition numbered (row : RunGridModel.dict) (k : string) (x : option Q) : Prop := exists v, In (k, v) row /\ number v x.
(** The files of a step: the template of the step, but of the second step for all later ones; the metallicity is given from the second step on, and is a new one *)
Definition step_files (ps : list string) (mass : string) (row : RunGridModel.dict) (j : nat) (fs : files) : Prop :=
  In ("inlist", StarInlist (nth (Nat.min j 1) ps "")) fs /\
  exists m, numbered row mass m /\
    match j with
    | O => In ("inlist_grid_points", Blocks [("&controls", [("initial_mass", Sci m)]); ("&star_job", [])]) fs
    | S _ => exists z, numbered row "initial_z" z /\
        In ("inlist_grid_points", Blocks [("&controls", [("initial_mass", Sci m); ("initial_z", Sci z); ("Zbase", Sci z)]); ("&star_job", [("new_Z", Sci z)])]) fs
    end.
Definition steps (f : option (string * list string)) (star : nat) (mass : string) (row : RunGridModel.dict) (es : list event) : Prop :=
  match f with
  | None => es = []
  | Some (x, ps) =>
      length es = length ps /\
      forall j e, nth_error es j = Some e ->
        exe e = x /\ out e = OutStar star j /\ keep_profiles e = false /\ keep_photos e = false /\ keep_work_dir e = true /\ step_files ps mass row j (found e)
  end.
Lemma star_files m p z b w w' : create_star_formation m p z b w = Ok w' -> fresh w ->
  In ("inlist", StarInlist p) w' /\ exists x, number m x /\
    match z with
    | None => In ("inlist_grid_points", Blocks [("&controls", [("initial_mass", Sci x)]); ("&star_job", [])]) w'
    | Some z => exists y, number z y /\ In ("inlist_grid_points", Blocks [("&controls", [("initial_mass", Sci x); ("initial_z", Sci y); ("Zbase", Sci y)]);
                                                                          ("&star_job", if b then [("new_Z", Sci y)] else [])]) w'
    end.
Proof.
  intros H F. assert (F' := fresh_star _ _ _ _ _ _ H F). destruct F' as [N _]. unfold create_star_formation in H. apply bind_ok in H as (s & S & H). apply sci_number in S as (x & X & ->).
  destruct z as [z|].
  - apply bind_ok in H as (s & S & H). apply sci_number in S as (y & Y & ->). assert (E : forall A (u v : A), Ok u = Ok v -> u = v) by (intros; congruence). apply E in H. subst w'.
    split; [apply in_get; [exact N|]; rewrite !write_get; reflexivity|]. exists x. split; [exact X|]. exists y. split; [exact Y|]. apply in_get; [exact N|]. rewrite !write_get. reflexivity.
  - assert (E : forall A (u v : A), Ok u = Ok v -> u = v) by (intros; congruence). apply E in H. subst w'.
    split; [apply in_get; [exact N|]; rewrite !write_get; reflexivity|]. exists x. split; [exact X|]. apply in_get; [exact N|]. rewrite !write_get. reflexivity.
Qed.
Lemma formation_steps x mass star params row all : (forall k v, item params k = Ok v -> In (k, v) row) ->
  forall ps i w evs w', formation x mass star params i ps w = (evs, Ok w') -> fresh w -> ps = skipn i all -> (i <> 0%nat -> step_files all mass row (i - 1) w) ->
  length evs = length ps /\ forall j e, nth_error evs j = Some e ->
        exe e = x /\ out e = OutStar star (i + j) /\ keep_profiles e = false /\ keep_photos e = false /\ keep_work_dir e = true /\ step_files all mass row (i + j) (found e).
Proof.
  intros IT. induction ps as [|p ps IH]; intros i w evs w' H F SE W; cbn [formation] in H.
  - assert (evs = []) as -> by congruence. split; [reflexivity|]. intros [|j] e; discriminate.
  - destruct (match i with O => _ | S O => _ | _ => _ end) as [w1|] eqn:E; [|congruence].
    assert (NTH : nth i all "" = p /\ ps = skipn (S i) all).
    { clear -SE. revert all SE. induction i as [|i IH]; intros [|y l] SE; cbn in *; try discriminate; [split; congruence|]. now apply IH. }
    destruct NTH as [NTH SK].
    assert (F1 : fresh w1 /\ step_files all mass row i w1).
    { destruct i as [|[|i]].
      - apply bind_ok in E as (m & M & E). split; [now apply (fresh_star _ _ _ _ _ _ E)|]. destruct (star_files _ _ _ _ _ _ E F) as (A & u & U & B).
        split; [cbn [Nat.min]; rewrite NTH; exact A|]. exists u. split; [exists m; split; [now apply IT|exact U]|exact B].
      - apply bind_ok in E as (m & M & E). apply bind_ok in E as (z & Z & E). split; [now apply (fresh_star _ _ _ _ _ _ E)|]. destruct (star_files _ _ _ _ _ _ E F) as (A & u & U & y & Y & B).
        split; [cbn [Nat.min]; rewrite NTH; exact A|]. exists u. split; [exists m; split; [now apply IT|exact U]|]. exists y. split; [exists z; split; [now apply IT|exact Y]|exact B].
      - assert (w1 = w) as -> by congruence. split; [exact F|]. assert (K : step_files all mass row (S (S i) - 1) w) by (apply W; discriminate).
        replace (S (S i) - 1)%nat with (S i) in K by lia. unfold step_files in *. replace (Nat.min (S (S i)) 1) with 1%nat by lia. replace (Nat.min (S i) 1) with 1%nat in K by lia. exact K. }
    destruct F1 as [F1 SF]. destruct (formation x mass star params (S i) ps w1) as [evs1 r] eqn:R. cbn [fst snd] in H.
    destruct (IH (S i) w1 evs1 w') as [L N]; [rewrite R; congruence|exact F1|exact SK|intros _; replace (S i - 1)%nat with i by lia; exact SF|].
    assert (evs = Ran x (OutStar star i) w1 false false true :: evs1) as -> by congruence. split; [cbn; now rewrite L|].
    intros [|j] e J; cbn in J.
    + assert (e = Ran x (OutStar star i) w1 false false true) as -> by congruence. rewrite Nat.add_0_r. repeat split; apply SF.
    + replace (i + S j)%nat with (S i + j)%nat by lia. now apply N.
Qed.
Theorem C185 : forall read a g evs i row, table g -> run_fixed read a g = (evs, Ok tt) -> grid_point_index a = Some i -> py_nth (rows g) i = Some row ->
  (exists e, In e evs /\ binary_run e) ->
  exists f1 f2 e1 e2 b, wanted (star1_executable a) (star1_projects a) f1 /\ wanted (star2_executable a) (star2_projects a) f2 /\
    evs = (e1 ++ e2 ++ [b])%list /\ steps f1 1 "m1" row e1 /\ steps f2 2 "m2" row e2 /\ binary_run b.
Proof.
  intros read a g evs i row T H I R B. destruct (run_fixed_binary _ _ _ _ _ H B) as (f1 & f2 & t & i' & row' & A1 & A2 & TM & I' & R' & P).
  assert (i' = i) as -> by congruence. assert (row' = row) as -> by congruence. apply run_point_ok in P as (_ & e1 & w1 & e2 & w2 & E1 & E2 & ->).
  apply formation_wanted in A1, A2. eexists f1, f2, e1, e2, _. split; [exact A1|]. split; [exact A2|]. split; [reflexivity|].
  assert (IT : forall k v, item (chain (map (slot_dicts g t row) slots)) k = Ok v -> In (k, v) row).
  { intros k v K. apply item_chain in K as [K _]; [exact K|exact T|now apply py_nth_in in R]. }
  assert (G : forall f mass star w es w', formation_of f mass star (chain (map (slot_dicts g t row) slots)) w = (es, Ok w') -> fresh w -> steps f star mass row es).
  { intros [[x ps]|] mass star w es w' E F; cbn in *; [|congruence]. apply (formation_steps x mass star _ row ps IT ps 0 w es w' E F); [reflexivity|congruence]. }
  split; [|split; [|reflexivity]].
  - apply (G f1 "m1" 1%nat [] e1 w1 E1 fresh_nil).
  - apply (G f2 "m2" 2%nat w1 e2 w2 E2). eapply fresh_of; [exact E1|apply fresh_nil].
Qed.
(** A mass which is missing stops it before any run; a metallicity which is missing stops it after the first step *)
Lemma item_missing {V} (d : list (string * V)) k : ~ In k (map fst d) -> item d k = Raise KeyError.
Proof. intros N. unfold item. now rewrite (proj2 (dget_None_notin String.eqb_spec d k)). Qed.
Theorem C185_missing : forall a f2 x p ps params ds m, nameable params = true ->
  (~ In "m1" (map fst params) -> run_grid_point a (Some (x, p :: ps)) f2 params ds = ([], Raise KeyError)) /\
  (dget String.eqb params "m1" = Some m -> ~ In "initial_z" (map fst params) -> ps <> [] ->
   exists e, run_grid_point a (Some (x, p :: ps)) f2 params ds = ([e], Raise KeyError) /\ out e = OutStar 1 0).
Proof.
  intros a f2 x p ps params ds m N. unfold run_grid_point. rewrite N. cbn [negb formation_of]. split.
  - intros M. cbn [formation]. rewrite (item_missing _ _ M). reflexivity.
  - intros M Z NE. destruct ps as [|q ps]; [congruence|]. assert (IM : item params "m1" = Ok m) by (unfold item; now rewrite M). assert (IZ := item_missing _ _ Z). cbn [formation].
    assert (NT : exists s, sci m = Ok s).
    { unfold nameable in N. rewrite forallb_forall in N. apply (dget_Some_in String.eqb_spec) in M. apply N in M. destruct m; cbn in *; try discriminate; eauto. }
    destruct NT as (s & S). assert (C : exists w, create_star_formation m p None false [] = Ok w) by (unfold create_star_formation; rewrite S; cbn [rbind]; eauto).
    destruct C as (w & C). rewrite IM. cbn [rbind]. rewrite C, IZ. cbn [rbind fst snd]. eexists. split; reflexivity.
Qed.
(** Texts are refused before any run, though they could be written *)
Theorem C184_text : forall a f1 f2 params ds k s, In (k, VText s) params -> run_grid_point a f1 f2 params ds = ([], Raise ValueError).
Proof.
  intros a f1 f2 params ds k s I. unfold run_grid_point. assert (E : nameable params = false).
  { destruct (nameable params) eqn:E; [|reflexivity]. unfold nameable in E. rewrite forallb_forall in E. apply E in I. discriminate. }
  now rewrite E.
Qed.
