(** The call of posydon-run-grid by posydon-setup-grid (CmdLineModel): C196. *)
From Coq Require Import String List Bool Arith Lia.
From Verif Require Import PyBase PyStr CmdLineModel.
Import ListNotations.
Open Scope list_scope.
Open Scope string_scope.
Local Infix "+++" := (@app _) (at level 60, right associativity).

(** ** The specification *)

(** A word which is no option *)
Definition plain (w : string) : Prop := forall r, w <> "-" ++ r.
Definition plain_list (o : option (list string)) : Prop := match o with Some l => l <> [] /\ Forall plain l /\ ~ In "None" l | None => True end.
Definition plain_call (c : call) : Prop :=
  Forall plain [grid c; binary_exe c; star1_exe c; star2_exe c; project c; inlist1 c; inlist2 c; star_columns c; binary_columns c; profile_columns c; output c; grid_type c; one (psycris c)] /\
  plain_list (formation1 c) /\ plain_list (formation2 c).

Lemma plain_option w : plain w -> is_option w = false.
Proof.
  intros P. destruct w as [|a r]; [reflexivity|]. unfold is_option. cbn [prefix]. destruct (Ascii.ascii_dec _ a) as [<-|]; [exfalso; exact (P r eq_refl)|reflexivity].
Qed.
Lemma group_plain w r : is_option w = false -> group (w :: r) = (w :: fst (group r), snd (group r)).
Proof. intros P. cbn [group]. now rewrite P. Qed.
Lemma group_option w r : is_option w = true -> group (w :: r) = ([], (w, fst (group r)) :: snd (group r)).
Proof. intros P. cbn [group]. now rewrite P. Qed.
Lemma group_list : forall l r, Forall plain l -> group (l +++ r) = (l +++ fst (group r), snd (group r)).
Proof.
  induction l as [|w l IH]; intros r H; [cbn; now destruct (group r)|]. inversion H as [|? ? P Q]; subst. change ((w :: l) +++ r) with (w :: (l +++ r)). rewrite (group_plain w _ (plain_option w P)), (IH r Q). reflexivity.
Qed.
Lemma several_plain o : plain_list o -> Forall plain (several o) /\ several o <> [].
Proof. destruct o as [l|]; cbn; [tauto|]. intros _. split; [constructor; [intros r; discriminate|constructor]|discriminate]. Qed.
(** The groups of the call *)
Definition groups (c : call) : list (string * list string) :=
  [("--mesa-grid", [grid c]); ("--mesa-binary-executable", [binary_exe c]); ("--mesa-star1-executable", [star1_exe c]); ("--mesa-star2-executable", [star2_exe c]); ("--mesa-binary-inlist-project", [project c]);
   ("--mesa-binary-inlist1", [inlist1 c]); ("--mesa-binary-inlist2", [inlist2 c]); ("--mesa-star1-inlist-project", several (formation1 c)); ("--mesa-star2-inlist-project", several (formation2 c));
   ("--mesa-star-history-columns", [star_columns c]); ("--mesa-binary-history-columns", [binary_columns c]); ("--mesa-profile-columns", [profile_columns c]); ("--output-directory", [output c]);
   ("--grid-type", [grid_type c]); ("--psycris-inifile", [one (psycris c)])] +++ (if keep_profiles c then [("--keep_profiles", [])] else []) +++ (if keep_photos c then [("--keep_photos", [])] else []).
Definition flatten (gs : list (string * list string)) : list string := flat_map (fun g => fst g :: snd g) gs.
Lemma group_flatten : forall gs, Forall (fun g => is_option (fst g) = true /\ Forall plain (snd g)) gs -> group (flatten gs) = ([], gs).
Proof.
  induction gs as [|[w l] gs IH]; intros H; [reflexivity|]. inversion H as [|? ? [O P] Q]; subst. change (flatten ((w, l) :: gs)) with (w :: (l +++ flatten gs)). rewrite (group_option w _ O), (group_list l _ P), (IH Q). cbn [fst snd]. now rewrite app_nil_r.
Qed.
Lemma options_flatten c : options c = flatten (groups c).
Proof. unfold options, groups. destruct (keep_profiles c), (keep_photos c); reflexivity. Qed.
Lemma group_call c : plain_call c -> group (options c) = ([], groups c).
Proof.
  intros (W & F1 & F2). destruct (several_plain _ F1) as [S1 _]. destruct (several_plain _ F2) as [S2 _]. rewrite Forall_forall in W. rewrite options_flatten. apply group_flatten. unfold groups. rewrite !Forall_app. split; [|split; [destruct (keep_profiles c)|destruct (keep_photos c)]; repeat constructor].
  repeat (constructor; [split; [reflexivity|first [exact S1 | exact S2 | constructor; [apply W; cbn; tauto|constructor]]]|]). constructor.
Qed.
Lemma dict_call c : dset_all String.eqb [] (groups c) = groups c.
Proof. unfold groups. destruct (keep_profiles c), (keep_photos c); reflexivity. Qed.

(** ** C196 *)

(** What setup-grid writes, run-grid reads: each argument comes back *)
Theorem C196 : forall c before argv, plain_call c -> construct_command_line c = Ok (before, argv) -> exists d, parse_commandline argv = Ok d /\
  (forall o v, In (o, v) [("--mesa-grid", grid c); ("--mesa-binary-executable", binary_exe c); ("--mesa-star1-executable", star1_exe c); ("--mesa-star2-executable", star2_exe c); ("--mesa-binary-inlist-project", project c);
    ("--mesa-binary-inlist1", inlist1 c); ("--mesa-binary-inlist2", inlist2 c); ("--mesa-star-history-columns", star_columns c); ("--mesa-binary-history-columns", binary_columns c); ("--mesa-profile-columns", profile_columns c);
    ("--output-directory", output c); ("--grid-type", grid_type c)] -> text d o = Some v) /\
  (forall p, psycris c = Some p -> text d "--psycris-inifile" = Some p) /\
  inlists d "--mesa-star1-inlist-project" = Ok (formation1 c) /\ inlists d "--mesa-star2-inlist-project" = Ok (formation2 c) /\
  flag d "--keep_profiles" = keep_profiles c /\ flag d "--keep_photos" = keep_photos c /\ flag d "--verbose" = false.
Proof.
  intros c before argv P E. assert (T : argv = options c /\ (grid_type c = "fixed" \/ grid_type c = "dynamic")).
  { unfold construct_command_line in E. destruct (String.eqb_spec (grid_type c) "fixed") as [T|_]; [split; [congruence|now left]|]. destruct (String.eqb_spec (grid_type c) "dynamic") as [T|_]; [split; [congruence|now right]|discriminate]. }
  destruct T as [-> T]. exists (groups c). destruct P as (W & F1 & F2). destruct (several_plain _ F1) as [_ S1]. destruct (several_plain _ F2) as [_ S2]. assert (P : plain_call c) by (split; [exact W|split; assumption]).
  assert (N : forall o, plain_list o -> Ok (if sin "None" (several o) then None else Some (several o)) = Ok o).
  { intros [l|]; [|reflexivity]. intros (_ & _ & NN). cbn [several]. destruct (sin "None" l) eqn:B; [|reflexivity]. exfalso. apply NN. apply existsb_exists in B as (x & I & X). apply String.eqb_eq in X. now subst. }
  split; [|split; [|split; [|split; [|split; [|split; [|split]]]]]].
  - unfold parse_commandline. rewrite (group_call c P). cbn [fst snd]. rewrite dict_call.
    assert (FT : forallb fits (groups c) = true).
    { unfold groups. destruct (several (formation1 c)) as [|x1 l1]; [congruence|]. destruct (several (formation2 c)) as [|x2 l2]; [congruence|]. destruct (keep_profiles c), (keep_photos c); reflexivity. }
    assert (RQ : forallb (dmem String.eqb (groups c)) required = true) by reflexivity. rewrite FT, RQ. cbn [andb negb]. change (text (groups c) "--grid-type") with (Some (grid_type c)). destruct T as [-> | ->]; reflexivity.
  - intros o v I. cbn in I. repeat (destruct I as [I|I]; [injection I as <- <-; reflexivity|]). destruct I.
  - intros p Q. change (text (groups c) "--psycris-inifile") with (Some (one (psycris c))). now rewrite Q.
  - change (inlists (groups c) "--mesa-star1-inlist-project") with (@Ok (option (list string)) (if sin "None" (several (formation1 c)) then None else Some (several (formation1 c)))). now apply N.
  - change (inlists (groups c) "--mesa-star2-inlist-project") with (@Ok (option (list string)) (if sin "None" (several (formation2 c)) then None else Some (several (formation2 c)))). now apply N.
  - unfold groups. destruct (keep_profiles c), (keep_photos c); reflexivity.
  - unfold groups. destruct (keep_profiles c), (keep_photos c); reflexivity.
  - unfold groups. destruct (keep_profiles c), (keep_photos c); reflexivity.
Qed.
(** so a star is formed just if setup-grid has made inlists for it *)
Theorem C196_formed : forall c before argv d, plain_call c -> construct_command_line c = Ok (before, argv) -> parse_commandline argv = Ok d ->
  (forms d "--mesa-star1-executable" "--mesa-star1-inlist-project" = Ok true <-> formation1 c <> None) /\ (forms d "--mesa-star2-executable" "--mesa-star2-inlist-project" = Ok true <-> formation2 c <> None).
Proof.
  intros c before argv d P E D. destruct (C196 c before argv P E) as (d' & D' & T & _ & I1 & I2 & _). assert (d' = d) as -> by congruence. unfold forms. rewrite I1, I2. cbn [rbind].
  rewrite (T "--mesa-star1-executable" (star1_exe c)), (T "--mesa-star2-executable" (star2_exe c)) by (cbn; tauto). destruct (formation1 c), (formation2 c); split; split; congruence.
Qed.
(** Only fixed and dynamic grids are called; the latter with mpirun and the number of processes *)
Theorem C196_type : forall c, match construct_command_line c with
  | Ok (before, _) => (grid_type c = "fixed" /\ before = ["python"; program c]) \/ (grid_type c = "dynamic" /\ before = ["mpirun"; "--bind-to"; "none"; "-np"; processes c; "python"; "-m"; "mpi4py"; program c])
  | Raise e => e = ValueError /\ grid_type c <> "fixed" /\ grid_type c <> "dynamic" end.
Proof.
  intros c. unfold construct_command_line. destruct (String.eqb_spec (grid_type c) "fixed") as [T|T]; [left; now split|]. destruct (String.eqb_spec (grid_type c) "dynamic") as [U|U]; [right; now split|now repeat split].
Qed.
(** ** Concrete cases *)
Definition call_case (t : string) (p : option string) : call :=
  {| processes := "4"; grid := "grid.csv"; binary_exe := "binary"; star1_exe := "star1"; star2_exe := "star2"; project := "p"; inlist1 := "i1"; inlist2 := "i2"; formation1 := Some ["a"; "b"]; formation2 := None;
     star_columns := "h"; binary_columns := "bh"; profile_columns := "pr"; output := "out"; grid_type := t; program := "run"; psycris := p; keep_profiles := true; keep_photos := false |}.
Example plain_case t p : plain t -> plain (one p) -> plain_call (call_case t p).
Proof. intros T P. split; [cbn; repeat (constructor; [try assumption; intros r; discriminate|]); constructor|]. split; [|exact I]. cbn. split; [discriminate|]. split; [repeat (constructor; [intros r; discriminate|]); constructor|]. intros [H|[H|[]]]; discriminate. Qed.
Example parse_case : exists d, parse_commandline (options (call_case "fixed" None)) = Ok d /\ inlists d "--mesa-star1-inlist-project" = Ok (Some ["a"; "b"]) /\ forms d "--mesa-star2-executable" "--mesa-star2-inlist-project" = Ok false.
Proof. eexists. repeat split. Qed.
(** "A dynamic grid without an inifile of psycris is refused" is false: None arrives as a text *)
Theorem C196_psycris_refuted : ~ (forall c before argv, plain_call c -> construct_command_line c = Ok (before, argv) -> grid_type c = "dynamic" -> psycris c = None -> parse_commandline argv = Raise (OtherError "SystemExit")).
Proof.
  intros H. specialize (H (call_case "dynamic" None) _ _ (plain_case "dynamic" None ltac:(intros r; discriminate) ltac:(intros r; discriminate)) eq_refl eq_refl eq_refl). discriminate H.
Qed.
(** "The inlists of the formation of a star are optional" is false: without the option run-grid ends in a TypeError *)
Theorem C196_optional_refuted : ~ (forall argv d, parse_commandline argv = Ok d -> exists b, forms d "--mesa-star1-executable" "--mesa-star1-inlist-project" = Ok b).
Proof.
  intros H. destruct (H ["--mesa-grid"; "g"; "--grid-type"; "fixed"; "--output-directory"; "o"; "--mesa-binary-executable"; "b"; "--mesa-binary-inlist-project"; "p"; "--mesa-binary-inlist1"; "1"; "--mesa-binary-inlist2"; "2";
    "--mesa-star-history-columns"; "h"; "--mesa-binary-history-columns"; "bh"; "--mesa-profile-columns"; "pc"] _ eq_refl) as [b B]. discriminate B.
Qed.

Print Assumptions C196.
Print Assumptions C196_formed.
Print Assumptions C196_type.
Print Assumptions C196_psycris_refuted.
Print Assumptions C196_optional_refuted.
