(** C186 and C187, and cases of C184 and C185 *)
From Coq Require Import String List Bool ZArith QArith Qround Lia.
From Verif Require Import PyBase PyStr InlistModel InlistProps RunGridModel FromRunProofs RunGridProps.
Import ListNotations.
Open Scope Q_scope.
Open Scope list_scope.
Open Scope string_scope.

(** ** Specification *)

(** The files of a step of a single star: its own template; the metallicity in the second and in the last step, as a new one unless it is the last step *)
Definition single_files (ps : list string) (row : RunGridModel.dict) (j : nat) (fs : files) : Prop :=
  In ("inlist", StarInlist (nth j ps "")) fs /\
  exists m, numbered row "initial_mass" m /\
    ((j = 1%nat \/ S j = length ps) /\
       (exists z, numbered row "initial_z" z /\
         exists nz, (S j = length ps -> nz = []) /\ (S j <> length ps -> nz = [("new_Z", Sci z)]) /\
           In ("inlist_grid_points", Blocks [("&controls", [("initial_mass", Sci m); ("initial_z", Sci z); ("Zbase", Sci z)]); ("&star_job", nz)]) fs)
     \/ (j <> 1%nat /\ S j <> length ps) /\ In ("inlist_grid_points", Blocks [("&controls", [("initial_mass", Sci m)]); ("&star_job", [])]) fs).

(** ** Proofs *)

Lemma single_steps x a params row all : (forall k v, item params k = Ok v -> In (k, v) row) ->
  forall ps i w evs, single x a params (length all - 1) i ps w = (evs, Ok tt) -> fresh w -> ps = skipn i all ->
  length evs = length ps /\ forall j e, nth_error evs j = Some e ->
        exe e = x /\ out e = OutStar 1 (i + j) /\ keep_profiles e = profiles_kept a /\ keep_photos e = photos_kept a /\
        (keep_work_dir e = true <-> S (i + j) <> length all) /\ single_files all row (i + j) (found e).
Proof.
  intros IT. induction ps as [|p ps IH]; intros i w evs H F SE; cbn [single] in H.
  - assert (evs = []) as -> by congruence. split; [reflexivity|]. intros [|j] e; discriminate.
  - destruct (rbind (item params "initial_mass") _) as [w1|] eqn:E; [|congruence].
    assert (NTH : nth i all "" = p /\ ps = skipn (S i) all /\ (i < length all)%nat).
    { clear -SE. revert all SE. induction i as [|i IH]; intros [|y l] SE; cbn in *; try discriminate; [repeat split; try congruence; lia|].
      destruct (IH l SE) as (A & B & C). repeat split; try assumption. lia. }
    destruct NTH as (NTH & SK & LT).
    assert (F1 : fresh w1 /\ single_files all row i w1).
    { apply bind_ok in E as (m & M & E). destruct (Nat.eqb_spec i (length all - 1)) as [EL|NL].
      - apply bind_ok in E as (z & Z & E). split; [now apply (fresh_star _ _ _ _ _ _ E)|]. destruct (star_files _ _ _ _ _ _ E F) as (A & u & U & y & Y & B).
        split; [rewrite NTH; exact A|]. exists u. split; [exists m; split; [now apply IT|exact U]|]. left. split; [right; lia|].
        exists y. split; [exists z; split; [now apply IT|exact Y]|]. exists []. split; [reflexivity|]. split; [lia|exact B].
      - destruct (Nat.eqb_spec i 1) as [E1|N1].
        + apply bind_ok in E as (z & Z & E). split; [now apply (fresh_star _ _ _ _ _ _ E)|]. destruct (star_files _ _ _ _ _ _ E F) as (A & u & U & y & Y & B).
          split; [rewrite NTH; exact A|]. exists u. split; [exists m; split; [now apply IT|exact U]|]. left. split; [left; exact E1|].
          exists y. split; [exists z; split; [now apply IT|exact Y]|]. eexists. split; [|split; [reflexivity|exact B]]. intros K. exfalso. lia.
        + split; [now apply (fresh_star _ _ _ _ _ _ E)|]. destruct (star_files _ _ _ _ _ _ E F) as (A & u & U & B).
          split; [rewrite NTH; exact A|]. exists u. split; [exists m; split; [now apply IT|exact U]|]. right. split; [split; [exact N1|lia]|exact B]. }
    destruct F1 as [F1 SF]. destruct (single x a params (length all - 1) (S i) ps w1) as [evs1 r] eqn:R. cbn [fst snd] in H.
    destruct (IH (S i) w1 evs1) as [L N]; [rewrite R; congruence|exact F1|exact SK|].
    assert (evs = Ran x (OutStar 1 i) w1 (profiles_kept a) (photos_kept a) (Nat.ltb i (length all - 1)) :: evs1) as -> by (injection H; intros _ Q; symmetry; exact Q). split; [cbn; now rewrite L|].
    intros [|j] e J; cbn in J.
    + assert (e = Ran x (OutStar 1 i) w1 (profiles_kept a) (photos_kept a) (Nat.ltb i (length all - 1))) as -> by (injection J; intros Q; symmetry; exact Q). rewrite Nat.add_0_r.
      cbn [exe out found RunGridModel.keep_profiles keep_photos keep_work_dir]. repeat split; try apply SF; destruct (Nat.ltb_spec i (length all - 1)); try discriminate; try reflexivity; lia.
    + replace (i + S j)%nat with (S i + j)%nat by lia. now apply N.
Qed.
Lemma chain2 g c j row k v : table g -> In row (rows g) -> item (chain [pick row (grid_params g c); pick row (grid_params g j)]) k = Ok v -> In (k, v) row.
Proof.
  intros T R. unfold item, chain. destruct (dget _ _ _) as [u|] eqn:G; [|discriminate]. intros H. assert (u = v) as -> by congruence.
  apply dset_all_in in G as [G|G]; [|discriminate]. cbn [rev app concat] in G. rewrite app_nil_r in G. apply in_app_or in G as [G|G]; now apply picked in G.
Qed.

(** A grid without a parameter of the binary, with the formation of the first star: only that star is run, step by step *)
Theorem C186 : forall read a g evs x ps, table g -> run_fixed read a g = (evs, Ok tt) -> wanted (star1_executable a) (star1_projects a) (Some (x, ps)) ->
  (forall c, In c (columns g) -> ~ known read a BC c /\ ~ known read a BJ c) ->
  exists i row, grid_point_index a = Some i /\ py_nth (rows g) i = Some row /\ length evs = length ps /\
    forall j e, nth_error evs j = Some e ->
      exe e = x /\ out e = OutStar 1 j /\ keep_profiles e = profiles_kept a /\ keep_photos e = photos_kept a /\
      (keep_work_dir e = true <-> S j <> length ps) /\ single_files ps row j (found e).
Proof.
  intros read a g evs x ps T H W NB. unfold run_fixed in H. rewrite (proj2 (formation_wanted _ _ _) W) in H. cbn [rbind] in H.
  destruct (formation_args (star2_executable a) (star2_projects a)) as [f2|]; [|discriminate]. cbn [rbind] in H.
  destruct (templates read a) as [t|] eqn:TM; [|discriminate]. cbn [rbind] in H.
  assert (Z : forall s, (forall c, In c (columns g) -> ~ known read a s c) -> grid_params g (t s) = []).
  { intros s K. unfold grid_params. destruct (filter _ _) as [|c l] eqn:E; [reflexivity|]. exfalso. assert (I : In c (c :: l)) by now left. rewrite <- E in I. apply filter_In in I as [I M].
    apply (K c I). now apply (templates_ok read a t TM). }
  rewrite (Z BC), (Z BJ) in H by (intros; now apply NB). cbn [app] in H. unfold single_star in H.
  destruct (rbind _ _) as [params|] eqn:E; [|discriminate]. apply bind_ok in E as (d & _ & E). apply bind_ok in E as (c & _ & E). apply bind_ok in E as (j & _ & E). apply bind_ok in E as (row & R & E).
  destruct (grid_point_index a) as [i|]; [|discriminate]. apply iloc_row in R. exists i, row. split; [reflexivity|]. split; [exact R|].
  destruct (nameable params); [|discriminate]. cbn [negb] in H.
  apply (single_steps x a params row ps) with (ps := ps) (i := 0%nat) (w := []); [|exact H|apply fresh_nil|reflexivity].
  intros k v K. assert (params = chain [pick row (grid_params g c); pick row (grid_params g j)]) as -> by congruence. apply (chain2 g c j row k v T); [now apply py_nth_in in R|exact K].
Qed.

(** Without an index nothing is run; if it is not a grid of single stars it ends as if all were well *)
Theorem C187_none : forall read a g, grid_point_index a = None -> fst (run_fixed read a g) = [].
Proof.
  intros read a g N. unfold run_fixed. destruct (rbind _ _) as [[[f1 f2] t]|]; [|reflexivity].
  assert (S : forall x ps, fst (single_star read a g x ps) = []).
  { intros x ps. unfold single_star. rewrite N. destruct (clean_inlist_file None _) as [d|]; [|reflexivity]. cbn [rbind]. destruct (section d "&controls"); [|reflexivity]. cbn [rbind].
    destruct (section d "&star_job"); reflexivity. }
  destruct f1 as [[x ps]|]; [|now rewrite N]. destruct (_ ++ _)%list; [apply S|now rewrite N].
Qed.
Theorem C187_silent : forall read a g f1 f2 t, grid_point_index a = None ->
  wanted (star1_executable a) (star1_projects a) f1 -> wanted (star2_executable a) (star2_projects a) f2 -> templates read a = Ok t ->
  (f1 = None \/ exists c, In c (columns g) /\ (known read a BC c \/ known read a BJ c)) ->
  run_fixed read a g = ([], Ok tt).
Proof.
  intros read a g f1 f2 t N A1 A2 TM C. apply formation_wanted in A1, A2. unfold run_fixed. rewrite A1, A2, TM. cbn [rbind].
  destruct f1 as [[x ps]|]; [|now rewrite N]. destruct C as [C|(c & I & K)]; [discriminate|].
  assert (M : In c (grid_params g (t BC) ++ grid_params g (t BJ))).
  { apply in_or_app. destruct K as [K|K]; apply (templates_ok read a t TM) in K; [left|right]; unfold grid_params; apply filter_In; now split. }
  destruct (_ ++ _)%list; [destruct M|]. now rewrite N.
Qed.
(** A list of templates for a star which is not given on the command line, though it is optional there, is an error before anything else *)
Theorem C187_optional : forall read a g, star1_projects a = None \/ star2_projects a = None ->
  exists e, run_fixed read a g = ([], Raise e) /\ e = TypeError.
Proof.
  intros read a g H. exists TypeError. split; [|reflexivity]. unfold run_fixed, formation_args. destruct (star1_projects a) as [l|]; [|reflexivity]. destruct H as [H|H]; [discriminate|]. rewrite H.
  destruct (existsb _ l); reflexivity.
Qed.
(** A position outside the table, from either end, is an IndexError without a run *)
Theorem C187_outside : forall read a g f1 f2 t i, grid_point_index a = Some i -> (Z.of_nat (length (rows g)) <= i \/ i < - Z.of_nat (length (rows g)))%Z ->
  wanted (star1_executable a) (star1_projects a) f1 -> wanted (star2_executable a) (star2_projects a) f2 -> templates read a = Ok t ->
  (f1 = None \/ exists c, In c (columns g) /\ (known read a BC c \/ known read a BJ c)) ->
  run_fixed read a g = ([], Raise IndexError).
Proof.
  intros read a g f1 f2 t i N O A1 A2 TM C. apply formation_wanted in A1, A2. unfold run_fixed. rewrite A1, A2, TM. cbn [rbind].
  assert (L : iloc g (grid_point_index a) = Raise IndexError).
  { rewrite N. cbn. destruct (py_nth (rows g) i) as [r|] eqn:E; [|reflexivity]. exfalso. revert E. unfold py_nth.
    repeat match goal with |- context [if ?b then _ else _] => destruct b eqn:? end; try discriminate; intros E;
      (assert (L := proj1 (nth_error_Some _ _) ltac:(rewrite E; discriminate))); lia. }
  destruct f1 as [[x ps]|]; [|now rewrite L, N]. destruct C as [C|(c & I & K)]; [discriminate|].
  assert (M : In c (grid_params g (t BC) ++ grid_params g (t BJ))).
  { apply in_or_app. destruct K as [K|K]; apply (templates_ok read a t TM) in K; [left|right]; unfold grid_params; apply filter_In; now split. }
  destruct (_ ++ _)%list; [destruct M|]. now rewrite L, N.
Qed.

(** ** Cases *)

Definition READ (p : string) : list string :=
  if String.eqb p "bin" then ["&binary_controls"; " m1 = 1 ! mass"; " m2 = 1"; "initial_period_in_days = 1"; "/"; "&binary_job"; "evolve_both_stars = .true."; "/"]
  else if String.eqb p "one" then ["&controls"; "initial_z = 0.0142d0"; "x_ctrl = ''"; "/"; "&star_job"; "/"]
  else if String.eqb p "two" then ["&controls"; "initial_z = 0.0142d0"; "/"; "&star_job"; "/"]
  else ["&controls"; "initial_mass = 1"; "initial_z = 1"; "/"; "&star_job"; "/"].
Definition POINT (m : Q) : RunGridModel.dict :=
  [("m1", VFloat (Some m)); ("m2", VFloat (Some (5 # 2))); ("initial_period_in_days", VFloat (Some 3)); ("initial_z", VFloat (Some (1 # 1000))); ("evolve_both_stars", VBool true);
   ("x_ctrl", VFloat (Some 1))].
Definition GRID := Grid ["m1"; "m2"; "initial_period_in_days"; "initial_z"; "evolve_both_stars"; "x_ctrl"] [POINT 10; POINT (21 # 2)].
Definition ARGS (projects : list string) (i : option Z) := Args (Some "star") None (Some projects) (Some ["None"]) "binary" "bin" "one" "two" i true false.
Lemma GRID_table : table GRID.
Proof.
  split.
  - repeat constructor; cbn; intuition discriminate.
  - intros r [<-|[<-|[]]]; reflexivity.
Qed.
(** A binary with three steps for the first star: the hypotheses of C184 and C185 *)
Example C185_case : exists evs, run_fixed READ (ARGS ["a"; "b"; "c"] (Some (-1)%Z)) GRID = (evs, Ok tt) /\ length evs = 4%nat /\ py_nth (rows GRID) (-1) = Some (POINT (21 # 2)) /\
  exists e, In e evs /\ binary_run e /\ delivered (found e) BC "m1" (Sci (Some (21 # 2))) /\ delivered (found e) BC "initial_period_in_days" (Int 3) /\
    delivered (found e) S1C "initial_z" (Sci (Some (1 # 1000))) /\ delivered (found e) BJ "evolve_both_stars" (Logical true).
Proof.
  eexists. split; [vm_compute; reflexivity|]. split; [reflexivity|]. split; [reflexivity|]. eexists. split; [do 3 right; left; reflexivity|]. split; [reflexivity|].
  split; [|split; [|split]]; eexists _, _; cbn [found].
  - split; [right; left; reflexivity|]. split; [left; reflexivity|]. left. reflexivity.
  - split; [right; left; reflexivity|]. split; [left; reflexivity|]. do 2 right. left. reflexivity.
  - split; [do 2 right; left; reflexivity|]. split; [left; reflexivity|]. left. reflexivity.
  - split; [right; left; reflexivity|]. split; [right; left; reflexivity|]. left. reflexivity.
Qed.
Lemma READ_x ps i s : ~ known READ (ARGS ps i) s "x_ctrl".
Proof.
  intros K. assert (T : exists t, templates READ (ARGS ps i) = Ok t /\ forall s, dmem String.eqb (t s) "x_ctrl" = false).
  { eexists. split; [vm_compute; reflexivity|]. intros [| | | | |]; reflexivity. }
  destruct T as (t & T & N). apply (templates_ok _ _ _ T) in K. rewrite N in K. discriminate.
Qed.
Lemma READ_stars ps i s c : In s [BC; BJ] -> In c ["initial_mass"; "initial_z"] -> ~ known READ (ARGS ps i) s c.
Proof.
  intros S I K. assert (T : exists t, templates READ (ARGS ps i) = Ok t /\ forall s c, In s [BC; BJ] -> In c ["initial_mass"; "initial_z"] -> dmem String.eqb (t s) c = false).
  { eexists. split; [vm_compute; reflexivity|]. intros s' c' [<-|[<-|[]]] [<-|[<-|[]]]; reflexivity. }
  destruct T as (t & T & N). apply (templates_ok _ _ _ T) in K. rewrite (N s c S I) in K. discriminate.
Qed.
(** A column which no template knows - or to which the template gives an empty text - is ignored *)
Theorem C184_ignored_refuted : exists read a g evs i row v, table g /\ run_fixed read a g = (evs, Ok tt) /\ grid_point_index a = Some i /\ py_nth (rows g) i = Some row /\
  In ("x_ctrl", v) row /\ (exists e, In e evs /\ binary_run e) /\ forall e s x, In e evs -> binary_run e -> ~ delivered (found e) s "x_ctrl" x.
Proof.
  destruct C185_case as (evs & H & _ & R & e & I & B & _). exists READ, (ARGS ["a"; "b"; "c"] (Some (-1)%Z)), GRID, evs, (-1)%Z, (POINT (21 # 2)), (VFloat (Some 1)).
  split; [apply GRID_table|]. split; [exact H|]. split; [reflexivity|]. split; [exact R|]. split; [do 5 right; left; reflexivity|]. split; [exists e; split; assumption|].
  intros e' s x I' B' D. destruct (C184 READ _ GRID evs (-1) (POINT (21 # 2)) e' GRID_table H eq_refl R I' B') as (_ & _ & _ & _ & _ & C). apply C in D as (v & _ & _ & K).
  exact (READ_x _ _ _ K).
Qed.
(** The third step of the formation does not see its own template, and its profiles are removed though they are to be kept *)
Theorem C185_third_refuted : exists read a g evs e, table g /\ run_fixed read a g = (evs, Ok tt) /\ star1_projects a = Some ["a"; "b"; "c"] /\ profiles_kept a = true /\
  nth_error evs 2 = Some e /\ out e = OutStar 1 2 /\ ~ In ("inlist", StarInlist "c") (found e) /\ In ("inlist", StarInlist "b") (found e) /\ keep_profiles e = false.
Proof.
  exists READ, (ARGS ["a"; "b"; "c"] (Some 0%Z)), GRID. eexists _, _. split; [apply GRID_table|]. split; [vm_compute; reflexivity|]. split; [reflexivity|]. split; [reflexivity|].
  split; [reflexivity|]. split; [reflexivity|]. split; [|split; [left; reflexivity|reflexivity]]. intros [K|[K|[]]]; discriminate.
Qed.
Example C185_missing_case : nameable [("m1", VInt 3)] = true /\ dget String.eqb [("m1", VInt 3)] "m1" = Some (VInt 3) /\ ~ In "initial_z" (map fst [("m1", VInt 3)]).
Proof. split; [reflexivity|]. split; [reflexivity|]. intros [E|[]]. discriminate. Qed.
(** A grid of single stars in three steps *)
Definition STARS := Grid ["initial_mass"; "initial_z"] [[("initial_mass", VFloat (Some 12)); ("initial_z", VFloat (Some (1 # 100)))]].
Example C186_case : table STARS /\ (exists evs, run_fixed READ (ARGS ["a"; "b"; "c"] (Some 0%Z)) STARS = (evs, Ok tt) /\ length evs = 3%nat) /\
  wanted (Some "star") (Some ["a"; "b"; "c"]) (Some ("star", ["a"; "b"; "c"])) /\
  forall c, In c (columns STARS) -> ~ known READ (ARGS ["a"; "b"; "c"] (Some 0%Z)) BC c /\ ~ known READ (ARGS ["a"; "b"; "c"] (Some 0%Z)) BJ c.
Proof.
  split; [split; [repeat constructor; cbn; intuition discriminate|intros r [<-|[]]; reflexivity]|]. split; [eexists; split; [vm_compute; reflexivity|reflexivity]|]. split.
  - eexists. split; [reflexivity|]. split; [reflexivity|]. split; [reflexivity|]. cbn. intuition discriminate.
  - intros c I. split; (apply READ_stars; [cbn; tauto|exact I]).
Qed.
Example C187_case : run_fixed READ (ARGS ["None"] None) GRID = ([], Ok tt) /\ run_fixed READ (ARGS ["None"] (Some 2%Z)) GRID = ([], Raise IndexError) /\
  run_fixed READ (Args None None None (Some ["None"]) "binary" "bin" "one" "two" (Some 0%Z) false false) GRID = ([], Raise TypeError).
Proof. vm_compute. repeat split. Qed.

Print Assumptions C184.
Print Assumptions C184_text.
Print Assumptions C184_ignored_refuted.
Print Assumptions C185.
Print Assumptions C185_missing.
Print Assumptions C185_third_refuted.
Print Assumptions C186.
Print Assumptions C187_none.
Print Assumptions C187_silent.
Print Assumptions C187_optional.
Print Assumptions C187_outside.
