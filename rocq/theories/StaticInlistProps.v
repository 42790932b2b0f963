(** The inlists of a grid of binaries (StaticInlistModel): C195. *)
From Coq Require Import String List Bool Arith Lia.
From Verif Require Import PyBase PyStr PyReplace PopModel FromRunProofs StaticInlistModel.
Import ListNotations.
Open Scope list_scope.
Open Scope string_scope.
Local Infix "+++" := (@app _) (at level 60, right associativity).

(** ** The specification *)

(** A key belongs to the first section, in this order, whose name it has *)
Definition order : list (sec * string) := [(BC, "binary_controls"); (BJ, "binary_job"); (J1, "star1_job"); (J2, "star2_job"); (C1, "star1_controls"); (C2, "star2_controls")].
Definition belongs (k : string) (s : sec) : Prop := exists l n r, order = l +++ (s, n) :: r /\ py_in n k = true /\ forall s' n', In (s', n') l -> py_in n' k = false.
Definition is_controls (s : sec) : Prop := s = C1 \/ s = C2.
Definition hidden (k : string) : Prop := py_in "read_extra" k = true \/ py_in "inlist" k = true.
(** The parameters taken from a file: not those which read further inlists; in the controls of a star the placeholder is 1 *)
Inductive taken (s : sec) : table -> table -> Prop :=
| taken_nil : taken s [] []
| taken_hidden k v p q : hidden k -> taken s p q -> taken s ((k, v) :: p) q
| taken_plain k v p q : ~ hidden k -> ~ is_controls s \/ py_in "num_x_ctrls" k = false -> taken s p q -> taken s ((k, v) :: p) ((k, v) :: q)
| taken_place k v p q : ~ hidden k -> is_controls s -> py_in "num_x_ctrls" k = true -> taken s p q -> taken s ((k, v) :: p) ((py_replace "num_x_ctrls" "1" k, v) :: q).
(** The parameters of all files of a section, in the order of the files *)
Inductive contents (read : string -> string -> result table) (s : sec) : list (string * value) -> table -> Prop :=
| contents_nil : contents read s [] []
| contents_unset k cfg l : contents read s cfg l -> contents read s ((k, Unset) :: cfg) l
| contents_other k v cfg l : ~ belongs k s -> contents read s cfg l -> contents read s ((k, v) :: cfg) l
| contents_file k f cfg p q l : belongs k s -> read f (match s with BC => "&binary_controls" | BJ => "&binary_job" | J1 | J2 => "&star_job" | _ => "&controls" end) = Ok p ->
    taken s p q -> contents read s cfg l -> contents read s ((k, File f) :: cfg) (q +++ l).
(** The parameters which are set by the tool itself *)
Definition own (s : sec) : list string :=
  match s with
  | BC => ["history_interval"]
  | BJ => ["inlist_names(1)"; "inlist_names(2)"]
  | J1 | J2 => ["read_extra_star_job_inlist1"; "extra_star_job_inlist1_name"; "create_pre_main_sequence_model"; "load_saved_model"; "saved_model_name";
                "write_profile_when_terminate"; "filename_for_profile_when_terminate"; "save_model_when_terminate"; "save_model_filename"]
  | C1 | C2 => ["read_extra_controls_inlist1"; "extra_controls_inlist1_name"; "do_history_file"; "history_interval"; "zams_filename"]
  end.

(** ** Lemmas *)
Lemma str_spec : forall x y : string, reflect (x = y) (String.eqb x y).
Proof. exact String.eqb_spec. Qed.
Lemma belongs_iff k s : belongs k s <-> classify k = Some s.
Proof.
  unfold classify. split.
  - intros (l & n & r & O & P & N). unfold order in O.
    destruct l as [|[s1 n1] l]; cbn in O; [injection O as <- <- <-; now rewrite P|]. injection O as <- <- O. rewrite (N BC "binary_controls") by now left.
    destruct l as [|[s2 n2] l]; cbn in O; [injection O as <- <- <-; now rewrite P|]. injection O as <- <- O. rewrite (N BJ "binary_job") by (cbn; tauto).
    destruct l as [|[s3 n3] l]; cbn in O; [injection O as <- <- <-; now rewrite P|]. injection O as <- <- O. rewrite (N J1 "star1_job") by (cbn; tauto).
    destruct l as [|[s4 n4] l]; cbn in O; [injection O as <- <- <-; now rewrite P|]. injection O as <- <- O. rewrite (N J2 "star2_job") by (cbn; tauto).
    destruct l as [|[s5 n5] l]; cbn in O; [injection O as <- <- <-; now rewrite P|]. injection O as <- <- O. rewrite (N C1 "star1_controls") by (cbn; tauto).
    destruct l as [|[s6 n6] l]; cbn in O; [injection O as <- <- <-; now rewrite P|]. injection O as <- <- O. destruct l; discriminate O.
  - destruct (py_in "binary_controls" k) eqn:K1; [intros E; injection E as <-; exists [], "binary_controls", (skipn 1 order); cbn; repeat split; [exact K1|intros ? ? []]|].
    destruct (py_in "binary_job" k) eqn:K2; [intros E; injection E as <-; exists (firstn 1 order), "binary_job", (skipn 2 order); repeat split; [exact K2|]; cbn; intros s' n' H; repeat (destruct H as [H|H]; [injection H as <- <-; assumption|]); destruct H|].
    destruct (py_in "star1_job" k) eqn:K3; [intros E; injection E as <-; exists (firstn 2 order), "star1_job", (skipn 3 order); repeat split; [exact K3|]; cbn; intros s' n' H; repeat (destruct H as [H|H]; [injection H as <- <-; assumption|]); destruct H|].
    destruct (py_in "star2_job" k) eqn:K4; [intros E; injection E as <-; exists (firstn 3 order), "star2_job", (skipn 4 order); repeat split; [exact K4|]; cbn; intros s' n' H; repeat (destruct H as [H|H]; [injection H as <- <-; assumption|]); destruct H|].
    destruct (py_in "star1_controls" k) eqn:K5; [intros E; injection E as <-; exists (firstn 4 order), "star1_controls", (skipn 5 order); repeat split; [exact K5|]; cbn; intros s' n' H; repeat (destruct H as [H|H]; [injection H as <- <-; assumption|]); destruct H|].
    destruct (py_in "star2_controls" k) eqn:K6; [intros E; injection E as <-; exists (firstn 5 order), "star2_controls", (skipn 6 order); repeat split; [exact K6|]; cbn; intros s' n' H; repeat (destruct H as [H|H]; [injection H as <- <-; assumption|]); destruct H|].
    discriminate.
Qed.
Lemma taken_entries s : forall p, taken s p (entries s p).
Proof.
  assert (CS : controls s = true <-> is_controls s) by (unfold is_controls; destruct s; cbn; intuition congruence).
  induction p as [|[k v] p IH]; [apply taken_nil|]. unfold entries in *. cbn [filter fst]. destruct (py_in "read_extra" k || py_in "inlist" k) eqn:H; cbn [negb].
  - apply taken_hidden; [unfold hidden; now apply orb_true_iff in H|exact IH].
  - apply orb_false_iff in H. assert (NH : ~ hidden k) by (unfold hidden; destruct H as [-> ->]; intuition congruence). cbn [map fst snd]. destruct (py_in "num_x_ctrls" k) eqn:X; [destruct (controls s) eqn:C; cbn [andb]|rewrite andb_false_r].
    + apply taken_place; [exact NH|now apply CS|exact X|exact IH].
    + apply taken_plain; [exact NH|left; rewrite <- CS; congruence|exact IH].
    + apply taken_plain; [exact NH|now right|exact IH].
Qed.
Lemma sec_eqb_spec a b : reflect (a = b) (sec_eqb a b).
Proof. destruct a, b; constructor; congruence. Qed.
Lemma layers_contents read s : forall cfg st st', layers read cfg st = Ok st' -> exists l, contents read s cfg l /\ st' s = dset_all String.eqb (st s) l.
Proof.
  induction cfg as [|[k v] cfg IH]; intros st st' E; cbn in E.
  - exists []. split; [apply contents_nil|cbn; congruence].
  - destruct v as [|f|fs].
    + destruct (IH _ _ E) as (l & C & S). exists l. split; [now apply contents_unset|exact S].
    + destruct (classify k) as [s'|] eqn:K.
      * apply bind_ok in E as (p & R & E). destruct (IH _ _ E) as (l & C & S). unfold add in S. destruct (sec_eqb_spec s s') as [<-|NE].
        -- exists (entries s p +++ l). split; [eapply contents_file; [now apply belongs_iff|unfold namelist in R; destruct s; exact R|apply taken_entries|exact C]|]. rewrite S. unfold dset_all. now rewrite fold_left_app.
        -- exists l. split; [|exact S]. apply contents_other; [rewrite belongs_iff; congruence|exact C].
      * destruct (IH _ _ E) as (l & C & S). exists l. split; [|exact S]. apply contents_other; [rewrite belongs_iff; congruence|exact C].
    + destruct (classify k) as [s'|] eqn:K; [discriminate|]. destruct (IH _ _ E) as (l & C & S). exists l. split; [|exact S]. apply contents_other; [rewrite belongs_iff; congruence|exact C].
Qed.
Lemma last_none : forall (l : table) k, ~ In k (map fst l) -> last_write String.eqb l k = None.
Proof.
  induction l as [|[k0 v0] l IH]; intros k N; [reflexivity|]. rewrite last_write_cons, (IH k) by (intros I; apply N; now right). destruct (String.eqb_spec k k0) as [->|]; [|reflexivity]. exfalso. apply N. now left.
Qed.
Lemma job_names i e n p m k : In k (map fst (job_writes i e n p m)) -> In k (own J1).
Proof.
  unfold job_writes. rewrite !map_app, !in_app_iff. intros [H|[H|[H|H]]].
  - destruct e; cbn in H; [|destruct H]. cbn. tauto.
  - apply in_map_iff in H as ([k' v'] & <- & H). apply in_flat_map in H as (x & _ & H). cbn in H. destruct H as [H|[H|[H|[]]]]; injection H as <- <-; cbn; tauto.
  - destruct p; cbn in H; cbn; tauto.
  - destruct m; cbn in H; cbn; tauto.
Qed.
Lemma control_names i e h v z k : In k (map fst (control_writes i e h v z)) -> In k (own C1).
Proof.
  unfold control_writes. rewrite !map_app, !in_app_iff. intros [H|[H|H]].
  - destruct e; cbn in H; [|destruct H]. cbn. tauto.
  - cbn in H. cbn. tauto.
  - destruct z; cbn in H; cbn; tauto.
Qed.
Lemma writes_names o grid st n1 n2 i1 i2 s k : In k (map fst (writes o grid st n1 n2 i1 i2 s)) -> In k (own s).
Proof.
  destruct s; cbn [writes].
  - intros H. destruct (binary_history o); cbn in H; cbn; tauto.
  - intros H. exact H.
  - apply job_names.
  - apply job_names.
  - apply control_names.
  - apply control_names.
Qed.
Lemma construct_ok read o grid cfg r : construct read o grid cfg = Ok r -> exists st, layers read cfg (fun _ => []) = Ok st /\ formation read One o cfg = Ok (form1 r) /\ formation read Two o cfg = Ok (form2 r) /\
  forall s, final r s = dset_all String.eqb (st s) (writes o grid st (List.length (form1 r)) (List.length (form2 r)) (work o ++ "/binary/inlist1") (work o ++ "/binary/inlist2") s).
Proof.
  intros E. unfold construct in E. apply bind_ok in E as (st & L & E). apply bind_ok in E as (f1 & F1 & E). apply bind_ok in E as (f2 & F2 & E). exists st.
  match type of E with Ok ?x = _ => assert (X : r = x) by congruence end. rewrite X. cbn [form1 form2 final]. repeat split; assumption.
Qed.
Lemma final_get read o grid cfg r s : construct read o grid cfg = Ok r -> exists st l, contents read s cfg l /\ (forall k, dget String.eqb (st s) k = last_write String.eqb l k) /\
  forall k, dget String.eqb (final r s) k = match last_write String.eqb (writes o grid st (List.length (form1 r)) (List.length (form2 r)) (work o ++ "/binary/inlist1") (work o ++ "/binary/inlist2") s) k with Some v => Some v | None => last_write String.eqb l k end.
Proof.
  intros E. destruct (construct_ok _ _ _ _ _ E) as (st & L & _ & _ & F). destruct (layers_contents read s cfg _ _ L) as (l & C & S). exists st, l. split; [exact C|].
  assert (G : forall k, dget String.eqb (st s) k = last_write String.eqb l k) by (intros k; rewrite S, (dget_dset_all str_spec); cbn; now destruct (last_write String.eqb l k)).
  split; [exact G|]. intros k. rewrite F, (dget_dset_all str_spec), G. reflexivity.
Qed.

(** ** C195 *)

(** A parameter which the tool does not set has the value of the last file of its section, in the order of the ini file, that sets it *)
Theorem C195 : forall read o grid cfg r, construct read o grid cfg = Ok r -> forall s, exists l, contents read s cfg l /\
  forall k, ~ In k (own s) -> dget String.eqb (final r s) k = last_write String.eqb l k.
Proof.
  intros read o grid cfg r E s. destruct (final_get _ _ _ _ _ s E) as (st & l & C & _ & F). exists l. split; [exact C|]. intros k N. rewrite F, last_none; [reflexivity|]. intros I. apply N. exact (writes_names _ _ _ _ _ _ _ _ _ I).
Qed.
(** No file makes MESA read a further inlist: in the jobs and in the controls of the binary such parameters are only the tool's *)
Lemma taken_open s p q : taken s p q -> ~ is_controls s -> forall k v, In (k, v) q -> ~ hidden k.
Proof. intros T N. induction T as [|k0 v0 p q H T IH|k0 v0 p q H X T IH|k0 v0 p q H I X T IH]; intros k v J; [destruct J|exact (IH k v J)| |contradiction]. destruct J as [J|J]; [injection J as <- <-; exact H|exact (IH k v J)]. Qed.
Lemma contents_open read s cfg l : contents read s cfg l -> ~ is_controls s -> forall k v, In (k, v) l -> ~ hidden k.
Proof. intros C N. induction C as [|k0 cfg l C IH|k0 v0 cfg l B C IH|k0 f cfg p q l B R T C IH]; intros k v J; [destruct J|exact (IH k v J)|exact (IH k v J)|]. apply in_app_iff in J as [J|J]; [exact (taken_open _ _ _ T N k v J)|exact (IH k v J)]. Qed.
Lemma last_in : forall (l : table) k v, last_write String.eqb l k = Some v -> In (k, v) l.
Proof.
  induction l as [|[k0 v0] l IH]; intros k v E; [discriminate|]. rewrite last_write_cons in E. destruct (last_write String.eqb l k) eqn:L; [right; apply IH; congruence|].
  destruct (String.eqb_spec k k0) as [->|]; [left; congruence|discriminate].
Qed.
Theorem C195_hidden : forall read o grid cfg r, construct read o grid cfg = Ok r -> forall s, ~ is_controls s -> forall k v, dget String.eqb (final r s) k = Some v -> hidden k -> In k (own s).
Proof.
  intros read o grid cfg r E s N k v G H. destruct (C195 _ _ _ _ _ E s) as (l & C & F). destruct (in_dec string_dec k (own s)) as [I|I]; [exact I|]. exfalso. rewrite (F k I) in G. exact (contents_open _ _ _ _ C N k v (last_in _ _ _ G) H).
Qed.
(** The inlists of the two stars read the inlist of the grid point just if a parameter of the grid is one of theirs; [i] is the number of the star *)
Definition job_of (i : star) : sec := match i with One => J1 | Two => J2 end.
Definition controls_of (i : star) : sec := match i with One => C1 | Two => C2 end.
Definition num (i : star) : string := match i with One => "1" | Two => "2" end.
Lemma some_spec grid t l : (forall k, dget String.eqb t k = last_write String.eqb l k) -> some_parameter grid t = true <-> exists p, In p grid /\ In p (map fst l).
Proof.
  intros G. unfold some_parameter. rewrite existsb_exists. split; intros (p & I & M); exists p; (split; [exact I|]).
  - unfold dmem in M. rewrite G in M. destruct (last_write String.eqb l p) as [v|] eqn:L; [|discriminate]. apply in_map_iff. exists (p, v). split; [reflexivity|now apply last_in].
  - unfold dmem. rewrite G. destruct (last_write String.eqb l p) as [v|] eqn:L; [reflexivity|]. exfalso. clear - M L. induction l as [|[k0 v0] l IH]; [destruct M|]. rewrite last_write_cons in L. destruct (last_write String.eqb l p) eqn:Q; [discriminate|].
    destruct (String.eqb_spec p k0) as [->|NE]; [discriminate|]. destruct M as [M|M]; [cbn in M; congruence|]. now apply IH.
Qed.
Lemma loads_other i k : ~ In k ["create_pre_main_sequence_model"; "load_saved_model"; "saved_model_name"] -> forall n m, last_write String.eqb (flat_map (load_writes i) (seq n m)) k = None.
Proof. intros N n m. apply last_none. intros H. apply N. apply in_map_iff in H as ([k' v'] & <- & H). apply in_flat_map in H as (x & _ & H). cbn in H. destruct H as [H|[H|[H|[]]]]; injection H as <- <-; cbn; tauto. Qed.
Theorem C195_grid_job : forall read o grid cfg r i, construct read o grid cfg = Ok r -> exists l, contents read (job_of i) cfg l /\
  ((exists p, In p grid /\ In p (map fst l)) -> dget String.eqb (final r (job_of i)) "read_extra_star_job_inlist1" = Some ".true." /\
     dget String.eqb (final r (job_of i)) "extra_star_job_inlist1_name" = Some ("'inlist_grid_star" ++ num i ++ "_binary_job'")) /\
  (~ (exists p, In p grid /\ In p (map fst l)) -> dget String.eqb (final r (job_of i)) "read_extra_star_job_inlist1" = None /\ dget String.eqb (final r (job_of i)) "extra_star_job_inlist1_name" = None).
Proof.
  intros read o grid cfg r i E. destruct (final_get _ _ _ _ _ (job_of i) E) as (st & l & C & G & F). exists l. split; [exact C|]. assert (SP := some_spec grid _ l G).
  assert (NC : ~ is_controls (job_of i)) by (unfold is_controls; destruct i; cbn; intuition congruence).
  assert (H : forall k, hidden k -> last_write String.eqb l k = None) by (intros k H; destruct (last_write String.eqb l k) as [v|] eqn:L; [|reflexivity]; exfalso; exact (contents_open _ _ _ _ C NC k v (last_in _ _ _ L) H)).
  rewrite !F, (H "read_extra_star_job_inlist1"), (H "extra_star_job_inlist1_name") by (right; reflexivity).
  assert (W : exists n p m, writes o grid st (List.length (form1 r)) (List.length (form2 r)) (work o ++ "/binary/inlist1") (work o ++ "/binary/inlist2") (job_of i) = job_writes i (some_parameter grid (st (job_of i))) n p m) by (destruct i; cbn [job_of writes]; do 3 eexists; reflexivity).
  destruct W as (n & p & m & ->). unfold job_writes. rewrite !last_write_app, !loads_other by (cbn; intuition congruence). split; intros Q.
  - apply SP in Q. rewrite Q. destruct p, m, i; split; reflexivity.
  - destruct (some_parameter grid (st (job_of i))) eqn:B; [exfalso; apply Q, SP; reflexivity|]. destruct p, m; split; reflexivity.
Qed.
Theorem C195_grid_controls : forall read o grid cfg r i, construct read o grid cfg = Ok r -> exists l, contents read (controls_of i) cfg l /\
  ((exists p, In p grid /\ In p (map fst l)) -> dget String.eqb (final r (controls_of i)) "read_extra_controls_inlist1" = Some ".true." /\
     dget String.eqb (final r (controls_of i)) "extra_controls_inlist1_name" = Some ("'inlist_grid_star" ++ num i ++ "_binary_controls'")) /\
  (~ (exists p, In p grid /\ In p (map fst l)) -> forall k, In k ["read_extra_controls_inlist1"; "extra_controls_inlist1_name"] -> dget String.eqb (final r (controls_of i)) k = last_write String.eqb l k).
Proof.
  intros read o grid cfg r i E. destruct (final_get _ _ _ _ _ (controls_of i) E) as (st & l & C & G & F). exists l. split; [exact C|]. assert (SP := some_spec grid _ l G).
  assert (W : exists h v z, writes o grid st (List.length (form1 r)) (List.length (form2 r)) (work o ++ "/binary/inlist1") (work o ++ "/binary/inlist2") (controls_of i) = control_writes i (some_parameter grid (st (controls_of i))) h v z) by (destruct i; cbn [controls_of writes]; do 3 eexists; reflexivity).
  destruct W as (h & v & z & W). split; intros Q.
  - apply SP in Q. rewrite !F, W, Q. unfold control_writes. destruct z, i; split; reflexivity.
  - assert (B : some_parameter grid (st (controls_of i)) = false) by (destruct (some_parameter grid (st (controls_of i))) eqn:B; [exfalso; apply Q, SP; reflexivity|reflexivity]).
    intros k K. rewrite F, W, B. unfold control_writes. destruct K as [<-|[<-|[]]]; destruct z; reflexivity.
Qed.
(** The output of a run follows the options, whatever the files say *)
Theorem C195_output : forall read o grid cfg r i, construct read o grid cfg = Ok r ->
  let (profile, model) := match i with One => (profile1 o, model1 o) | Two => (profile2 o, model2 o) end in
  let (history, zams) := match i with One => (history1 o, zams1 o) | Two => (history2 o, zams2 o) end in
  dget String.eqb (final r (job_of i)) "write_profile_when_terminate" = Some (if profile then ".true." else ".false.") /\
  (profile = true -> dget String.eqb (final r (job_of i)) "filename_for_profile_when_terminate" = Some ("'final_profile_star" ++ num i ++ ".data'")) /\
  dget String.eqb (final r (job_of i)) "save_model_when_terminate" = Some (if model then ".true." else ".false.") /\
  (model = true -> dget String.eqb (final r (job_of i)) "save_model_filename" = Some ("'final_star" ++ num i ++ ".mod'")) /\
  dget String.eqb (final r (controls_of i)) "do_history_file" = Some (if history then ".true." else ".false.") /\
  dget String.eqb (final r (controls_of i)) "history_interval" = Some (interval o) /\
  (forall z, zams = Some z -> dget String.eqb (final r (controls_of i)) "zams_filename" = Some ("'" ++ z ++ "'")) /\
  dget String.eqb (final r BC) "history_interval" = Some (if binary_history o then interval o else "-1") /\
  dget String.eqb (final r BJ) ("inlist_names(" ++ num i ++ ")") = Some ("'" ++ (work o ++ "/binary/inlist" ++ num i) ++ "'").
Proof.
  intros read o grid cfg r i E. destruct (final_get _ _ _ _ _ BC E) as (st0 & l0 & _ & _ & F0). destruct (final_get _ _ _ _ _ BJ E) as (st1 & l1 & _ & _ & F1).
  destruct (final_get _ _ _ _ _ (job_of i) E) as (st2 & l2 & _ & _ & F2). destruct (final_get _ _ _ _ _ (controls_of i) E) as (st3 & l3 & _ & _ & F3).
  destruct i; cbn [job_of controls_of num] in *; rewrite F0, !F1, !F2, !F3; cbn [writes]; unfold job_writes, control_writes; rewrite !last_write_app, ?loads_other by (cbn; intuition congruence); repeat split; intros;
    repeat match goal with
    | H : zams1 o = Some _ |- _ => rewrite H
    | H : zams2 o = Some _ |- _ => rewrite H
    | H : profile1 o = true |- _ => rewrite H
    | H : profile2 o = true |- _ => rewrite H
    | H : model1 o = true |- _ => rewrite H
    | H : model2 o = true |- _ => rewrite H
    | |- context [profile1 o] => destruct (profile1 o)
    | |- context [profile2 o] => destruct (profile2 o)
    | |- context [model1 o] => destruct (model1 o)
    | |- context [model2 o] => destruct (model2 o)
    | |- context [history1 o] => destruct (history1 o)
    | |- context [history2 o] => destruct (history2 o)
    | |- context [binary_history o] => destruct (binary_history o)
    | |- context [match zams1 o with _ => _ end] => destruct (zams1 o)
    | |- context [match zams2 o with _ => _ end] => destruct (zams2 o)
    end; reflexivity.
Qed.
(** ** The formation of the stars *)
Definition forms (r : inlists) (i : star) : list step_file := match i with One => form1 r | Two => form2 r end.
Definition zams_of (o : options) (i : star) : option string := match i with One => zams1 o | Two => zams2 o end.
Lemma map_result_nth {A B} (f : A -> result B) : forall l ys, map_result f l = Ok ys -> List.length ys = List.length l /\ forall n y, nth_error ys n = Some y -> exists x, nth_error l n = Some x /\ f x = Ok y.
Proof.
  induction l as [|x l IH]; intros ys E; cbn in E.
  - assert (ys = []) as -> by congruence. split; [reflexivity|]. intros [|n] y N; discriminate N.
  - apply bind_ok in E as (y0 & F & E). apply bind_ok in E as (z & M & E). assert (ys = y0 :: z) as -> by congruence. destruct (IH z M) as [L NN]. split; [cbn; congruence|]. intros [|n] y N; cbn in N.
    + exists x. split; [reflexivity|congruence].
    + exact (NN n y N).
Qed.
Lemma formation_step read i o cfg fs n x : formation read i o cfg = Ok fs -> nth_error fs n = Some x -> zams_of o i = None /\ exists cj, name x = [work o; "star" ++ digit i; "inlist_step" ++ str_nat n] /\ step_job x = dset_all String.eqb cj (step_writes i n).
Proof.
  intros E N. unfold formation in E. change (match i with One => zams1 o | Two => zams2 o end) with (zams_of o i) in E. destruct (zams_of o i) as [z|]; [assert (fs = []) as -> by congruence; destruct n; discriminate N|]. split; [reflexivity|].
  destruct (formation_items i cfg) as [|it items] eqn:I; [assert (fs = []) as -> by congruence; destruct n; discriminate N|]. apply bind_ok in E as (steps & S & E).
  destruct (map_result_nth _ _ _ E) as [_ NE]. destruct (NE n x N) as ([m l] & NS & X). destruct (map_result_nth _ _ _ S) as [_ NE2]. destruct (NE2 n (m, l) NS) as (m' & SQ & P).
  apply bind_ok in P as (l' & _ & P). assert (m' = m) as -> by congruence. assert (m = n) as ->.
  { assert (L : (n < List.length (seq 0 (number (it :: items))))%nat) by (apply nth_error_Some; congruence). rewrite seq_length in L. rewrite (nth_error_nth' _ 0) in SQ by (rewrite seq_length; exact L). rewrite seq_nth in SQ by exact L. cbn in SQ. congruence. }
  apply bind_ok in X as (cj & _ & X). match type of X with Ok ?y = _ => assert (Y : x = y) by congruence end. rewrite Y. exists (snd cj). split; reflexivity.
Qed.
Lemma forms_ok read o grid cfg r i : construct read o grid cfg = Ok r -> formation read i o cfg = Ok (forms r i).
Proof. intros E. destruct (construct_ok _ _ _ _ _ E) as (_ & _ & F1 & F2 & _). now destruct i. Qed.
(** Each step saves its model, and the next one loads this model *)
Theorem C195_chain : forall read o grid cfg r i n x y, construct read o grid cfg = Ok r -> nth_error (forms r i) n = Some x -> nth_error (forms r i) (S n) = Some y ->
  dget String.eqb (step_job x) "save_model_when_terminate" = Some ".true." /\ dget String.eqb (step_job y) "load_saved_model" = Some ".true." /\ dget String.eqb (step_job y) "create_pre_main_sequence_model" = Some ".false." /\
  exists file, dget String.eqb (step_job x) "save_model_filename" = Some file /\ dget String.eqb (step_job y) "saved_model_name" = Some file.
Proof.
  intros read o grid cfg r i n x y E X Y. assert (F := forms_ok _ _ _ _ _ i E). destruct (formation_step _ _ _ _ _ _ _ F X) as (_ & cx & _ & JX). destruct (formation_step _ _ _ _ _ _ _ F Y) as (_ & cy & _ & JY).
  rewrite JX, JY, !(dget_dset_all str_spec). split; [destruct n; reflexivity|]. split; [reflexivity|]. split; [reflexivity|]. exists (model_file i n). split; [destruct n; reflexivity|reflexivity].
Qed.
(** and the binary loads the model of the last step *)
Theorem C195_binary : forall read o grid cfg r i l x, construct read o grid cfg = Ok r -> forms r i = l +++ [x] ->
  dget String.eqb (final r (job_of i)) "load_saved_model" = Some ".true." /\ dget String.eqb (final r (job_of i)) "create_pre_main_sequence_model" = Some ".false." /\
  dget String.eqb (step_job x) "save_model_when_terminate" = Some ".true." /\
  exists file, dget String.eqb (step_job x) "save_model_filename" = Some file /\ dget String.eqb (final r (job_of i)) "saved_model_name" = Some file.
Proof.
  intros read o grid cfg r i l x E L. assert (F := forms_ok _ _ _ _ _ i E). assert (X : nth_error (forms r i) (List.length l) = Some x) by (rewrite L, nth_error_app2, Nat.sub_diag by lia; reflexivity).
  destruct (formation_step _ _ _ _ _ _ _ F X) as (_ & cx & _ & JX). destruct (final_get _ _ _ _ _ (job_of i) E) as (st & l2 & _ & _ & FG).
  assert (W : exists e p m, writes o grid st (List.length (form1 r)) (List.length (form2 r)) (work o ++ "/binary/inlist1") (work o ++ "/binary/inlist2") (job_of i) = job_writes i e (List.length (forms r i)) p m) by (destruct i; cbn [job_of writes forms]; do 3 eexists; reflexivity).
  destruct W as (e & p & m & W). rewrite !FG, !W, JX, !(dget_dset_all str_spec), L, app_length. cbn [List.length]. unfold job_writes. rewrite seq_app, flat_map_app, !last_write_app. cbn [plus seq flat_map]. rewrite app_nil_r.
  split; [destruct p, m; reflexivity|]. split; [destruct p, m; reflexivity|]. split; [destruct (List.length l); reflexivity|]. exists (model_file i (List.length l)). split; [destruct (List.length l); reflexivity|destruct p, m; reflexivity].
Qed.
(** A star is formed just if there is no precomputed model and a key of its formation is set; with as many steps as the longest list has files, at least one *)
Definition formed (i : star) (kv : string * value) : Prop := py_in ("star" ++ num i ++ "_formation") (fst kv) = true /\ snd kv <> Unset.
Definition size (v : value) : nat := match v with Files l => List.length l | _ => 0 end.
Lemma items_in i cfg kv : In kv (formation_items i cfg) <-> In kv cfg /\ formed i kv.
Proof.
  unfold formation_items, formed. rewrite filter_In, andb_true_iff. replace (digit i) with (num i) by (now destruct i). destruct (snd kv); intuition congruence.
Qed.
Lemma number_spec : forall items n, let m := fold_left (fun n kv => match snd kv with Files l => Nat.max n (List.length l) | _ => n end) items n in
  (n <= m)%nat /\ (forall kv : string * value, In kv items -> (size (snd kv) <= m)%nat) /\ (m = n \/ exists kv, In kv items /\ size (snd kv) = m).
Proof.
  induction items as [|kv items IH]; intros n; cbn [fold_left]; [cbn; repeat split; [lia|intros ? []|now left]|].
  set (n' := match snd kv with Files l => Nat.max n (List.length l) | _ => n end). destruct (IH n') as (A & B & C). cbn zeta. assert (NN : (n <= n')%nat /\ (size (snd kv) <= n')%nat /\ (n' = n \/ n' = size (snd kv))) by (unfold n', size; destruct (snd kv); lia).
  split; [lia|]. split; [intros kv' [<-|I]; [lia|now apply B]|]. destruct C as [C|(kv' & I & C)]; [|right; exists kv'; split; [now right|exact C]]. destruct NN as (_ & _ & [Q|Q]); [left; congruence|right; exists kv; split; [now left|congruence]].
Qed.
Theorem C195_steps : forall read o grid cfg r i, construct read o grid cfg = Ok r ->
  (zams_of o i <> None \/ (forall kv, In kv cfg -> ~ formed i kv) -> forms r i = []) /\
  (zams_of o i = None -> (exists kv, In kv cfg /\ formed i kv) -> (1 <= List.length (forms r i))%nat /\ (forall kv, In kv cfg -> formed i kv -> (size (snd kv) <= List.length (forms r i))%nat) /\
     (List.length (forms r i) = 1%nat \/ exists kv, In kv cfg /\ formed i kv /\ size (snd kv) = List.length (forms r i))).
Proof.
  intros read o grid cfg r i E. assert (F := forms_ok _ _ _ _ _ i E). unfold formation in F. change (match i with One => zams1 o | Two => zams2 o end) with (zams_of o i) in F. split.
  - intros H. destruct (zams_of o i) as [z|]; [congruence|]. destruct H as [H|H]; [congruence|]. destruct (formation_items i cfg) as [|it items] eqn:I; [congruence|]. exfalso. assert (J : In it (formation_items i cfg)) by (rewrite I; now left). apply items_in in J as [J K]. exact (H it J K).
  - intros Z (kv & J & K). rewrite Z in F. assert (IN : In kv (formation_items i cfg)) by (apply items_in; now split). destruct (formation_items i cfg) as [|it items] eqn:I; [destruct IN|]. apply bind_ok in F as (steps & S & F).
    destruct (map_result_nth _ _ _ F) as [L1 _]. destruct (map_result_nth _ _ _ S) as [L2 _]. rewrite seq_length in L2. destruct (number_spec (it :: items) 1) as (A & B & C). unfold number in L2. cbn zeta in A, B, C. rewrite <- L2, <- L1 in A, B, C. rewrite <- I in B, C.
    split; [exact A|]. split; [intros kv' J' K'; apply B, items_in; now split|]. destruct C as [C|(kv' & J' & C)]; [now left|right]. apply items_in in J' as [J' K']. now exists kv'.
Qed.
(** The parameters of step [n] of the formation: of the files with number [n] of the lists, and of the files which are not in a list; those of keys with [what] in their names *)
Inductive step_contents (read : string -> string -> result table) (i : star) (n : nat) (what section : string) (s : sec) : list (string * value) -> table -> Prop :=
| step_nil : step_contents read i n what section s [] []
| step_other kv cfg l : ~ (formed i kv /\ py_in ("star" ++ num i ++ what) (fst kv) = true) -> step_contents read i n what section s cfg l -> step_contents read i n what section s (kv :: cfg) l
| step_one k v f cfg p q l : formed i (k, v) -> py_in ("star" ++ num i ++ what) k = true -> (v = File f \/ exists fs, v = Files fs /\ nth_error fs n = Some f) -> read f section = Ok p -> taken s p q ->
    step_contents read i n what section s cfg l -> step_contents read i n what section s ((k, v) :: cfg) (q +++ l).
Lemma dset_all_app (d l1 l2 : table) : dset_all String.eqb d (l1 +++ l2) = dset_all String.eqb (dset_all String.eqb d l1) l2.
Proof. unfold dset_all. apply fold_left_app. Qed.
Lemma step_layers_contents read i n : forall cfg l st cj, picks n (formation_items i cfg) = Ok l -> step_layers read i l st = Ok cj -> exists lc lj,
  step_contents read i n "_formation_controls" "&controls" C1 cfg lc /\ step_contents read i n "_formation_job" "&star_job" J1 cfg lj /\ fst cj = dset_all String.eqb (fst st) lc /\ snd cj = dset_all String.eqb (snd st) lj.
Proof.
  assert (DN : digit i = num i) by (now destruct i).
  induction cfg as [|[k v] cfg IH]; intros l st cj P E.
  - cbn in P. assert (l = []) as -> by congruence. cbn in E. assert (cj = st) as -> by congruence. exists [], []. repeat split; apply step_nil.
  - assert (FI : formation_items i ((k, v) :: cfg) = if py_in ("star" ++ digit i ++ "_formation") k && match v with Unset => false | _ => true end then (k, v) :: formation_items i cfg else formation_items i cfg) by reflexivity.
    rewrite FI in P. destruct (py_in ("star" ++ digit i ++ "_formation") k && match v with Unset => false | _ => true end) eqn:B.
    + apply andb_true_iff in B as [B1 B2]. assert (FO : formed i (k, v)) by (split; [rewrite <- DN; exact B1|cbn; intros ->; discriminate]). cbn [picks] in P. apply bind_ok in P as (f & PF & P). apply bind_ok in P as (l' & P' & P). assert (l = (k, f) :: l') as -> by congruence.
      assert (V : v = File f \/ exists fs, v = Files fs /\ nth_error fs n = Some f).
      { destruct v as [|f'|fs]; cbn in PF; [discriminate|left; congruence|right]. exists fs. split; [reflexivity|]. destruct (nth_error fs n); congruence. }
      cbn [step_layers] in E. apply bind_ok in E as (c & EC & E). apply bind_ok in E as (j & EJ & E). destruct (IH l' (c, j) cj P' E) as (lc & lj & SC & SJ & QC & QJ). cbn [fst snd] in QC, QJ. rewrite DN in EC, EJ.
      assert (XC : exists lc', step_contents read i n "_formation_controls" "&controls" C1 ((k, v) :: cfg) lc' /\ fst cj = dset_all String.eqb (fst st) lc').
      { destruct (py_in ("star" ++ num i ++ "_formation_controls") k) eqn:K.
        - apply bind_ok in EC as (p & R & EC). exists (entries C1 p +++ lc). split; [eapply step_one; [exact FO|exact K|exact V|exact R|apply taken_entries|exact SC]|]. rewrite QC. injection EC as <-. symmetry. apply dset_all_app.
        - exists lc. split; [apply step_other; [intros [_ X]; cbn [fst] in X; rewrite X in K; discriminate K|exact SC]|rewrite QC; injection EC as <-; reflexivity]. }
      assert (XJ : exists lj', step_contents read i n "_formation_job" "&star_job" J1 ((k, v) :: cfg) lj' /\ snd cj = dset_all String.eqb (snd st) lj').
      { destruct (py_in ("star" ++ num i ++ "_formation_job") k) eqn:K.
        - apply bind_ok in EJ as (p & R & EJ). exists (entries J1 p +++ lj). split; [eapply step_one; [exact FO|exact K|exact V|exact R|apply taken_entries|exact SJ]|]. rewrite QJ. injection EJ as <-. symmetry. apply dset_all_app.
        - exists lj. split; [apply step_other; [intros [_ X]; cbn [fst] in X; rewrite X in K; discriminate K|exact SJ]|rewrite QJ; injection EJ as <-; reflexivity]. }
      destruct XC as (lc' & ? & ?), XJ as (lj' & ? & ?). now exists lc', lj'.
    + assert (NF : ~ formed i (k, v)).
      { intros [F1 F2]. cbn [fst snd] in F1, F2. rewrite <- DN in F1. rewrite F1 in B. destruct v; [congruence|discriminate|discriminate]. }
      destruct (IH l st cj P E) as (lc & lj & SC & SJ & Q). exists lc, lj. split; [apply step_other; tauto|]. split; [apply step_other; tauto|exact Q].
Qed.
(** The controls and the job of a step: the last file of the step which sets a parameter decides *)
Theorem C195_step : forall read o grid cfg r i n x, construct read o grid cfg = Ok r -> nth_error (forms r i) n = Some x -> exists lc lj,
  name x = [work o; "star" ++ num i; "inlist_step" ++ str_nat n] /\
  step_contents read i n "_formation_controls" "&controls" C1 cfg lc /\ step_contents read i n "_formation_job" "&star_job" J1 cfg lj /\ (forall k, dget String.eqb (step_controls x) k = last_write String.eqb lc k) /\
  forall k, ~ In k ["create_pre_main_sequence_model"; "load_saved_model"; "saved_model_name"; "save_model_when_terminate"; "save_model_filename"] -> dget String.eqb (step_job x) k = last_write String.eqb lj k.
Proof.
  intros read o grid cfg r i n x E N. assert (F := forms_ok _ _ _ _ _ i E). destruct (formation_step _ _ _ _ _ _ _ F N) as (Z & _ & NM & _). unfold formation in F. change (match i with One => zams1 o | Two => zams2 o end) with (zams_of o i) in F. rewrite Z in F.
  destruct (formation_items i cfg) as [|it items] eqn:I; [assert (X : forms r i = []) by congruence; rewrite X in N; destruct n; discriminate N|]. rewrite <- I in F. apply bind_ok in F as (steps & S & F).
  destruct (map_result_nth _ _ _ F) as [_ NE]. destruct (NE n x N) as ([m l] & NS & X). destruct (map_result_nth _ _ _ S) as [_ NE2]. destruct (NE2 n (m, l) NS) as (m' & SQ & P). apply bind_ok in P as (l' & PK & P).
  assert (m' = m) as -> by congruence. assert (l' = l) as -> by congruence. assert (m = n) as ->.
  { assert (L : (n < List.length (seq 0 (number (formation_items i cfg))))%nat) by (apply nth_error_Some; congruence). rewrite seq_length in L. rewrite (nth_error_nth' _ 0) in SQ by (rewrite seq_length; exact L). rewrite seq_nth in SQ by exact L. cbn in SQ. congruence. }
  apply bind_ok in X as (cj & SL & X). cbn [snd fst] in SL, X. destruct (step_layers_contents _ _ _ _ _ _ _ PK SL) as (lc & lj & SC & SJ & QC & QJ). cbn [fst snd] in QC, QJ. exists lc, lj.
  split; [rewrite NM; now destruct i|]. split; [exact SC|]. split; [exact SJ|]. match type of X with Ok ?y = _ => assert (Y : x = y) by congruence end. rewrite Y. cbn [step_controls step_job]. split.
  - intros k. rewrite QC, (dget_dset_all str_spec). cbn. now destruct (last_write String.eqb lc k).
  - intros k K. rewrite QJ, !(dget_dset_all str_spec), (last_none (step_writes i n)); [cbn; now destruct (last_write String.eqb lj k)|]. intros J. apply K. destruct n; cbn in J; cbn; tauto.
Qed.
(** Lists of different lengths are refused *)
Lemma map_result_error {A B} (f : A -> result B) (e : exn) : forall l, (forall x, In x l -> (exists y, f x = Ok y) \/ f x = Raise e) -> (exists x, In x l /\ f x = Raise e) -> map_result f l = Raise e.
Proof.
  induction l as [|x l IH]; intros H (z & I & R); [destruct I|]. cbn. destruct (H x (or_introl eq_refl)) as [[y Y]|Y]; rewrite Y; [|reflexivity]. cbn [rbind]. rewrite IH; [reflexivity|intros w W; apply H; now right|]. destruct I as [<-|I]; [congruence|]. now exists z.
Qed.
Lemma picks_error n : forall items, (forall kv, In kv items -> snd kv <> Unset) -> (exists l, picks n items = Ok l) \/ picks n items = Raise IndexError.
Proof.
  induction items as [|[k v] items IH]; intros H; [left; now exists []|]. cbn. assert (V := H (k, v) (or_introl eq_refl)). cbn in V. destruct (IH (fun kv I => H kv (or_intror I))) as [[l L]|L].
  - destruct v as [|f|fs]; [congruence| |]; cbn [pick]; [|destruct (nth_error fs n)]; cbn [rbind]; rewrite ?L; cbn [rbind]; [left; eexists; reflexivity|left; eexists; reflexivity|now right].
  - destruct v as [|f|fs]; [congruence| |]; cbn [pick]; [|destruct (nth_error fs n)]; cbn [rbind]; rewrite ?L; cbn [rbind]; now right.
Qed.
Lemma picks_short n : forall items k l, In (k, Files l) items -> (List.length l <= n)%nat -> forall x, picks n items <> Ok x.
Proof.
  induction items as [|[k0 v0] items IH]; intros k l I L x E; [destruct I|]. cbn in E. apply bind_ok in E as (f & P & E). apply bind_ok in E as (y & Q & _). destruct I as [I|I]; [|exact (IH k l I L y Q)].
  assert (v0 = Files l) as -> by congruence. cbn in P. rewrite (proj2 (nth_error_None l n) L) in P. discriminate.
Qed.
Theorem C195_lengths : forall read o cfg i k l kv, zams_of o i = None -> In (k, Files l) cfg -> formed i (k, Files l) -> In kv cfg -> formed i kv -> (List.length l < Nat.max 1 (size (snd kv)))%nat ->
  formation read i o cfg = Raise IndexError.
Proof.
  intros read o cfg i k l kv Z I1 K1 I2 K2 L. unfold formation. change (match i with One => zams1 o | Two => zams2 o end) with (zams_of o i). rewrite Z.
  assert (A1 : In (k, Files l) (formation_items i cfg)) by (apply items_in; now split). assert (A2 : In kv (formation_items i cfg)) by (apply items_in; now split).
  assert (U : forall x, In x (formation_items i cfg) -> snd x <> Unset) by (intros x X; apply items_in in X as [_ [_ X]]; exact X). destruct (formation_items i cfg) as [|it items] eqn:I; [destruct A1|]. rewrite <- I in *.
  destruct (number_spec (formation_items i cfg) 1) as (N1 & N2 & _). cbn zeta in N1, N2. fold (number (formation_items i cfg)) in N1, N2. specialize (N2 kv A2).
  rewrite (map_result_error _ IndexError); [reflexivity| |].
  - intros n _. destruct (picks_error n (formation_items i cfg) U) as [[x X]|X]; rewrite X; [left; eexists; reflexivity|now right].
  - exists (List.length l). split; [apply in_seq; lia|]. destruct (picks_error (List.length l) (formation_items i cfg) U) as [[x X]|X]; [exfalso; exact (picks_short _ _ _ _ A1 (le_n _) x X)|]. now rewrite X.
Qed.

(** ** Concrete cases *)
Definition read_case (f s : string) : result table :=
  if String.eqb s "&controls" then Ok (if String.eqb f "user" then [("mixing", "2"); ("read_extra_controls_inlist2", ".true.")] else [("mixing", "1"); ("x_ctrl(num_x_ctrls)", "0"); ("initial_z", "0.02")])
  else if String.eqb s "&star_job" then Ok [("pgstar_flag", ".false."); ("save_model_filename", "'mine.mod'")] else Ok [("m1", "1"); ("initial_period_in_days", "2")].
Definition o_case : options :=
  {| zams1 := Some "zams.data"; zams2 := None; profile1 := true; profile2 := false; model1 := false; model2 := true; history1 := true; history2 := false; interval := "1"; binary_history := false; work := "/w" |}.
Definition cfg_case : list (string * value) :=
  [("star1_controls_default", File "default"); ("star1_controls_user", File "user"); ("star2_controls_default", File "default"); ("star2_controls_user", Unset); ("star2_job_default", File "default"); ("binary_controls_default", File "default");
   ("star2_formation_controls_default", Files ["default"; "default"]); ("star2_formation_job_user", Files ["user"; "user"])].
Example construct_case : exists r, construct read_case o_case ["m1"; "initial_z"] cfg_case = Ok r /\
  final r C1 = [("mixing", "2"); ("x_ctrl(1)", "0"); ("initial_z", "0.02"); ("read_extra_controls_inlist1", ".true."); ("extra_controls_inlist1_name", "'inlist_grid_star1_binary_controls'"); ("do_history_file", ".true."); ("history_interval", "1"); ("zams_filename", "'zams.data'")] /\
  final r BC = [("m1", "1"); ("initial_period_in_days", "2"); ("history_interval", "-1")] /\
  final r J2 = [("pgstar_flag", ".false."); ("save_model_filename", "'final_star2.mod'"); ("create_pre_main_sequence_model", ".false."); ("load_saved_model", ".true."); ("saved_model_name", "'initial_star2_step1.mod'");
                ("write_profile_when_terminate", ".false."); ("save_model_when_terminate", ".true.")] /\
  form1 r = [] /\ List.length (form2 r) = 2%nat.
Proof. eexists. split; [reflexivity|]. repeat split; reflexivity. Qed.
Example lengths_case : construct read_case o_case [] [("star2_formation_controls_default", Files ["a"; "b"]); ("star2_formation_job_user", Files ["a"])] = Raise IndexError.
Proof. reflexivity. Qed.

Print Assumptions C195.
Print Assumptions C195_hidden.
Print Assumptions C195_grid_job.
Print Assumptions C195_grid_controls.
Print Assumptions C195_output.
Print Assumptions C195_chain.
Print Assumptions C195_binary.
Print Assumptions C195_steps.
Print Assumptions C195_step.
Print Assumptions C195_lengths.
