(** C183: what is read from a template of MESA *)
From Coq Require Import String List Bool Ascii.
From Verif Require Import PyBase PyStr PySplit PyStrip GridFileProps InlistModel.
Import ListNotations.
Open Scope list_scope.
Open Scope string_scope.

(** ** Specification *)

Definition within (sub s : string) : Prop := exists a b, s = a ++ sub ++ b.
(** What is left of a line without its comment and the blanks around *)
Definition code_of (line t : string) : Prop :=
  exists c r, line = c ++ r /\ ~ within "!" c /\ (r = "" \/ exists r', r = "!" ++ r') /\ stripped c t.
Inductive event := Nothing | Header (t : string) | Assign (k v : string).
(** A line is nothing, the header of a section, or an assignment, cut at the first equals sign *)
Definition reads (line : string) (e : event) : Prop :=
  exists t, code_of line t /\
    match e with
    | Header h => within "&" t /\ h = t
    | Assign k v => ~ within "&" t /\ exists a b, t = a ++ "=" ++ b /\ ~ within "=" a /\ stripped a k /\ stripped b v
    | Nothing => ~ within "&" t /\ ~ within "=" t
    end.
(** The assignments with the section they are in *)
Fixpoint tagged (cur : option string) (es : list event) : list (option string * (string * string)) :=
  match es with
  | [] => []
  | Nothing :: r => tagged cur r
  | Header t :: r => tagged (Some t) r
  | Assign k v :: r => (cur, (k, v)) :: tagged cur r
  end.
Definition headers (es : list event) : list string := flat_map (fun e => match e with Header t => [t] | _ => [] end) es.
(** An assignment of an empty text or of the present directory does not count *)
Definition counts (kv : string * string) : Prop := snd kv <> "''" /\ snd kv <> "'.'".
(** The last assignment that counts *)
Definition last_set (l : list (option string * (string * string))) (s : option string) (k v : string) : Prop :=
  exists a b, l = (a ++ (s, (k, v)) :: b)%list /\ counts (k, v) /\ forall v', In (s, (k, v')) b -> ~ counts (k, v').
Definition value (d : params) (s : option string) (k v : string) : Prop :=
  exists kvs, In (s, kvs) d /\ In (k, v) kvs.

(** ** Lines *)

Definition classify (line : string) : event :=
  let t := clean_line line in
  if py_in "&" t then Header t else if py_in "=" t then Assign (fst (key_value t)) (snd (key_value t)) else Nothing.

Lemma within_iff sub s : within sub s <-> py_in sub s = true.
Proof. symmetry. apply py_in_iff. Qed.
Lemma not_within sub s : ~ within sub s <-> py_in sub s = false.
Proof. rewrite within_iff. destruct (py_in sub s); split; congruence. Qed.
Lemma within_char c s : within (String c "") s <-> In c (list_ascii_of_string s).
Proof.
  split.
  - intros (a & b & ->). rewrite list_app. apply in_or_app. right. left. reflexivity.
  - intros I. apply in_split in I as (a & b & E). exists (string_of_list_ascii a), (string_of_list_ascii b).
    rewrite <- (string_of_list_ascii_of_string s), E. clear. induction a as [|x a IH]; [reflexivity|]. cbn. f_equal. exact IH.
Qed.
Lemma blank_lacks c s : is_space c = false -> blank s -> ~ In c (list_ascii_of_string s).
Proof. intros S B I. apply B in I. congruence. Qed.
Lemma head_cut s : hd "" (split "!" s) = match partition "!" s with Some (a, _) => a | None => s end.
Proof.
  destruct (partition "!" s) as [[a b]|] eqn:P.
  - rewrite (split_cons "!" s a b) by (discriminate || exact P). reflexivity.
  - rewrite split_one by (discriminate || exact P). reflexivity.
Qed.
Lemma clean_code line : code_of line (clean_line line).
Proof.
  unfold clean_line. rewrite head_cut. destruct (strip_stripped line) as (a & b & E & A & B & T). set (s := strip line) in *.
  destruct (partition "!" s) as [[c r]|] eqn:P.
  - assert (N : py_in "!" c = false).
    { destruct (split_spec "!" s) as (_ & _ & F); [discriminate|]. rewrite (split_cons "!" s c r) in F by (discriminate || exact P). now inversion F. }
    apply partition_some in P as [P _]. exists (a ++ c), ("!" ++ r ++ b). split; [|split; [|split]].
    + rewrite E, P. now rewrite <- !str_assoc.
    + rewrite within_char, list_app, in_app_iff. intros [I|I].
      * revert I. now apply blank_lacks.
      * apply within_char in I. apply not_within in I; [exact I|exact N].
    + right. now eexists.
    + rewrite <- (str_nil_r c) at 1. apply stripped_pad; [exact A|apply blank_nil|apply strip_stripped].
  - apply partition_none in P. exists line, "". split; [now rewrite str_nil_r|]. split; [|split; [now left|]].
    + rewrite within_char, E, !list_app, !in_app_iff. intros [I|[I|I]]; [revert I; now apply blank_lacks| |revert I; now apply blank_lacks].
      apply within_char in I. apply not_within in I; [exact I|exact P].
    + rewrite E at 1. apply stripped_pad; [exact A|exact B|apply strip_stripped].
Qed.
Lemma cut_unique (x : ascii) : forall a b a' b', a ++ String x b = a' ++ String x b' -> ~ In x (list_ascii_of_string a) -> ~ In x (list_ascii_of_string a') -> a = a' /\ b = b'.
Proof.
  induction a as [|c a IH]; intros b [|c' a'] b' E N N'; cbn in *.
  - split; congruence.
  - exfalso. apply N'. left. congruence.
  - exfalso. apply N. left. congruence.
  - assert (c = c') by congruence. subst c'. destruct (IH b a' b') as [-> ->]; [congruence|tauto|tauto|]. now split.
Qed.
Lemma code_unique line t t' : code_of line t -> code_of line t' -> t = t'.
Proof.
  intros (c & r & E & N & R & S) (c' & r' & E' & N' & R' & S').
  assert (c = c') as <-.
  { rewrite within_char in N, N'. destruct R as [->|[q ->]], R' as [->|[q' ->]].
    - rewrite str_nil_r in *. congruence.
    - exfalso. apply N. rewrite str_nil_r in E. rewrite <- E, E', list_app. apply in_or_app. right. now left.
    - exfalso. apply N'. rewrite str_nil_r in E'. rewrite <- E', E, list_app. apply in_or_app. right. now left.
    - rewrite E in E'. cbn in E'. now apply cut_unique in E'. }
  now apply (stripped_unique c).
Qed.
Lemma reads_classify line e : reads line e <-> e = classify line.
Proof.
  assert (K : forall t, py_in "=" t = true -> exists a b, t = a ++ "=" ++ b /\ ~ within "=" a /\ stripped a (fst (key_value t)) /\ stripped b (snd (key_value t))).
  { intros t I. unfold key_value. destruct (partition "=" t) as [[a b]|] eqn:P; [|apply partition_none in P; congruence].
    exists a, b. split; [now apply partition_some in P|]. split; [|split; apply strip_stripped].
    apply not_within. destruct (split_spec "=" t) as (_ & _ & F); [discriminate|]. rewrite (split_cons "=" t a b) in F by (discriminate || exact P). now inversion F. }
  split.
  - intros (t & C & M). assert (t = clean_line line) as -> by (apply (code_unique line); [exact C|apply clean_code]).
    unfold classify. destruct e as [|h|k v].
    + destruct M as [-> %not_within -> %not_within]. reflexivity.
    + destruct M as [-> %within_iff ->]. reflexivity.
    + destruct M as [-> %not_within (a & b & E & N & A & B)]. assert (I : py_in "=" (clean_line line) = true) by (apply py_in_iff; now exists a, b).
      rewrite I. destruct (K _ I) as (a' & b' & E' & N' & A' & B'). rewrite within_char in N, N'. rewrite E in E'. cbn in E'. apply cut_unique in E' as [<- <-]; auto.
      f_equal; [now apply (stripped_unique a)|now apply (stripped_unique b)].
  - intros ->. exists (clean_line line). split; [apply clean_code|]. unfold classify.
    destruct (py_in "&" (clean_line line)) eqn:A; [split; [now apply within_iff|reflexivity]|].
    destruct (py_in "=" (clean_line line)) eqn:B; [|split; now apply not_within]. split; [now apply not_within|]. now apply K.
Qed.
Lemma reads_lines lines es : Forall2 reads lines es -> es = map classify lines.
Proof. induction 1 as [|x e l es H _ IH]; [reflexivity|]. cbn. f_equal; [now apply reads_classify|exact IH]. Qed.
(** Every line is exactly one of the three *)
Theorem C183_lines : forall line, exists! e, reads line e.
Proof. intros line. exists (classify line). split; [now apply reads_classify|]. intros e H. symmetry. now apply reads_classify. Qed.

(** ** Sections *)

Lemma key_eqb_spec : forall x y, reflect (x = y) (key_eqb x y).
Proof. intros [x|] [y|]; cbn; try (constructor; congruence). destruct (String.eqb_spec x y); constructor; congruence. Qed.
Lemma list_headers lines : filter (py_in "&") (param_value_list lines) = headers (map classify lines).
Proof.
  unfold param_value_list. induction lines as [|x l IH]; [reflexivity|]. cbn [map filter headers flat_map]. unfold relevant, classify at 1.
  destruct (py_in "&" (clean_line x)) eqn:A.
  - assert (E : String.eqb (clean_line x) "" = false). { apply String.eqb_neq. intros K. rewrite K in A. discriminate. }
    rewrite E, orb_true_r. cbn. rewrite A. cbn. f_equal. exact IH.
  - rewrite orb_false_r. destruct (negb _ && py_in "=" _) eqn:B; cbn; [rewrite A|]; destruct (py_in "=" (clean_line x)); exact IH.
Qed.
(** The walk over the assignments *)
Fixpoint put (l : list (option string * (string * string))) (d : params) : result params :=
  match l with
  | [] => Ok d
  | (c, (k, v)) :: r =>
      if unset_value v then put r d
      else match c with
           | None => Raise (OtherError "UnboundLocalError")
           | Some c => put r (dset key_eqb d (Some c) (dset String.eqb (section_of d (Some c)) k v))
           end
  end.
Lemma walk_put lines : forall cur d, walk cur (param_value_list lines) d = put (tagged cur (map classify lines)) d.
Proof.
  unfold param_value_list. induction lines as [|x l IH]; intros cur d; [reflexivity|]. cbn [map filter]. unfold relevant. unfold classify at 1.
  destruct (py_in "&" (clean_line x)) eqn:A.
  - assert (E : String.eqb (clean_line x) "" = false). { apply String.eqb_neq. intros K. rewrite K in A. discriminate. }
    rewrite E, orb_true_r. cbn [negb andb walk tagged]. rewrite A. apply IH.
  - rewrite orb_false_r. destruct (py_in "=" (clean_line x)) eqn:B.
    + assert (E : String.eqb (clean_line x) "" = false). { apply String.eqb_neq. intros K. rewrite K in B. discriminate. }
      rewrite E. cbn [negb andb walk tagged put]. rewrite A. cbn zeta. destruct (unset_value _); [apply IH|]. destruct cur; [apply IH|reflexivity].
    + rewrite andb_false_r. cbn [tagged]. apply IH.
Qed.
Lemma unset_iff v : unset_value v = false <-> forall k, counts (k, v).
Proof.
  unfold unset_value, counts. cbn. rewrite !orb_false_iff, !String.eqb_neq. split; [intros (A & B & _) _; now split|].
  intros H. destruct (H "") as [A B]. now repeat split.
Qed.
Lemma counts_key k k' v : counts (k, v) -> counts (k', v).
Proof. exact (fun H => H). Qed.
Definition get2 (d : params) (s : option string) (k : string) : option string := dget String.eqb (section_of d s) k.
Lemma get2_put d c k v s k' : get2 (dset key_eqb d c (dset String.eqb (section_of d c) k v)) s k' =
  if key_eqb s c && String.eqb k' k then Some v else get2 d s k'.
Proof.
  unfold get2. unfold section_of at 1. rewrite (dget_dset key_eqb_spec). destruct (key_eqb_spec s c) as [->|N]; [|reflexivity].
  cbn [andb]. rewrite (dget_dset String.eqb_spec). destruct (String.eqb k' k); [reflexivity|]. reflexivity.
Qed.
Lemma put_get l : forall d d', put l d = Ok d' -> forall s k v, get2 d' s k = Some v <->
  last_set l s k v \/ (get2 d s k = Some v /\ forall v', In (s, (k, v')) l -> ~ counts (k, v')).
Proof.
  induction l as [|[c [k0 v0]] r IH]; intros d d' P s k v; cbn [put] in P.
  - assert (d' = d) as -> by congruence. split; [intros H; right; split; [exact H|intros v' []]|]. intros [(a & b & E & _)|[H _]]; [destruct a; discriminate|exact H].
  - destruct (unset_value v0) eqn:U.
    + rewrite (IH d d' P). assert (NC : forall k, ~ counts (k, v0)).
      { intros k1 C. rewrite (proj2 (unset_iff v0)) in U; [discriminate|]. intros k2. exact C. }
      split.
      * intros [(a & b & E & C & L)|[H N]]; [left; exists ((c, (k0, v0)) :: a), b; subst r; split; [reflexivity|]; split; assumption|].
        right. split; [exact H|]. intros v' [E|I]; [|now apply N]. assert (v' = v0) as -> by congruence. apply NC.
      * intros [(a & b & E & C & L)|[H N]]; [left|right; split; [exact H|intros v' I; apply N; now right]].
        destruct a as [|x a]; cbn in E; [assert (v = v0) as -> by congruence; exfalso; now apply (NC k)|]. exists a, b. split; [congruence|]. split; assumption.
    + destruct c as [c|]; [|discriminate]. rewrite (IH _ d' P), get2_put. assert (CV : forall k, counts (k, v0)) by now apply unset_iff. split.
      * intros [(a & b & E & C & L)|[H N]]; [left; exists ((Some c, (k0, v0)) :: a), b; subst r; split; [reflexivity|]; split; assumption|].
        destruct (key_eqb_spec s (Some c)) as [->|NS]; cbn [andb] in H.
        { destruct (String.eqb_spec k k0) as [->|NK].
          - left. assert (v0 = v) as -> by congruence. exists [], r. split; [reflexivity|]. split; [apply CV|exact N].
          - right. split; [exact H|]. intros v' [E|I]; [congruence|now apply N]. }
        right. split; [exact H|]. intros v' [E|I]; [congruence|now apply N].
      * intros [(a & b & E & C & L)|[H N]].
        { destruct a as [|x a]; cbn in E.
          - right. assert (s = Some c) as -> by congruence. assert (k = k0) as -> by congruence. assert (v = v0) as -> by congruence. assert (r = b) as -> by congruence.
            destruct (key_eqb_spec (Some c) (Some c)); [|congruence]. rewrite String.eqb_refl. cbn. split; [reflexivity|exact L].
          - left. exists a, b. split; [congruence|]. split; assumption. }
        right. split; [|intros v' I; apply N; now right]. destruct (key_eqb_spec s (Some c)) as [->|]; [|exact H].
        destruct (String.eqb_spec k k0) as [->|]; [|exact H]. exfalso. apply (N v0); [now left|apply CV].
Qed.
Lemma put_keys l : forall d d', put l d = Ok d' -> (forall c kv, In (Some c, kv) l -> In (Some c) (dkeys d)) -> dkeys d' = dkeys d.
Proof.
  induction l as [|[c [k v]] r IH]; intros d d' P H; cbn [put] in P; [congruence|].
  destruct (unset_value v); [apply IH; [exact P|intros c' kv I; apply (H c' kv); now right]|]. destruct c as [c|]; [|discriminate].
  assert (K : forall x, dkeys (dset key_eqb d (Some c) x) = dkeys d).
  { intros x. assert (I : In (Some c) (dkeys d)) by (apply (H c (k, v)); now left). clear -I. unfold dkeys in *. induction d as [|[k y] d IH]; [destruct I|].
    cbn [dset]. destruct (key_eqb_spec (Some c) k) as [E|E]; [reflexivity|]. cbn [map fst]. f_equal. apply IH. destruct I; [cbn in *; congruence|assumption]. }
  rewrite (IH _ _ P); [apply K|]. intros c' kv I. rewrite K. apply (H c' kv). now right.
Qed.
Lemma put_raise l : forall d e, put l d = Raise e <->
  e = OtherError "UnboundLocalError" /\ exists a k v b, l = (a ++ (None, (k, v)) :: b)%list /\ counts (k, v).
Proof.
  induction l as [|[c [k v]] r IH]; intros d e; cbn [put].
  - split; [discriminate|]. intros [_ (a & k & v & b & E & _)]. destruct a; discriminate.
  - destruct (unset_value v) eqn:U.
    + rewrite IH. split; intros [-> (a & k' & v' & b & E & C)]; (split; [reflexivity|]).
      * exists ((c, (k, v)) :: a), k', v', b. split; [subst r; reflexivity|exact C].
      * destruct a as [|x a]; cbn in E.
        { assert (v' = v) as -> by congruence. rewrite (proj2 (unset_iff v)) in U; [discriminate|intros; exact C]. }
        exists a, k', v', b. split; [congruence|exact C].
    + destruct c as [c|].
      * rewrite IH. split; intros [-> (a & k' & v' & b & E & C)]; (split; [reflexivity|]).
        { exists ((Some c, (k, v)) :: a), k', v', b. split; [subst r; reflexivity|exact C]. }
        destruct a as [|x a]; cbn in E; [congruence|]. exists a, k', v', b. split; [congruence|exact C].
      * split; [|intros [-> _]; reflexivity]. intros E. split; [congruence|]. exists [], k, v, r. split; [reflexivity|]. now apply unset_iff.
Qed.
Definition preset (hs : list string) : params := fold_left (fun (d : params) k => dset key_eqb d (Some k) []) hs [].
Lemma preset_acc hs : forall d : params, NoDup (dkeys d) -> (forall x y, In (x, y) d -> y = []) ->
  let p := fold_left (fun (d : params) k => dset key_eqb d (Some k) []) hs d in
  NoDup (dkeys p) /\ (forall x y, In (x, y) p -> y = []) /\ forall s, In s (dkeys p) <-> In s (dkeys d) \/ exists h, s = Some h /\ In h hs.
Proof.
  induction hs as [|h hs IH]; intros d N E; cbn [fold_left].
  - split; [exact N|]. split; [exact E|]. intros s. split; [tauto|]. intros [H|(h & _ & [])]; exact H.
  - destruct (IH (dset key_eqb d (Some h) [])) as (A & B & C).
    + now apply (NoDup_dset key_eqb_spec).
    + clear -E. induction d as [|[k y] d IH]; cbn [dset]; [intros ? ? [H|[]]; congruence|]. destruct (key_eqb (Some h) k).
      * intros a b [H|H]; [congruence|]. apply (E a b). now right.
      * intros a b [H|H]; [apply (E a b); now left|]. apply (IH ltac:(intros; eapply E; right; eassumption) a b H).
    + split; [exact A|]. split; [exact B|]. intros s. rewrite C, (dkeys_dset key_eqb_spec). unfold dmem. destruct (dget key_eqb d (Some h)) as [z|] eqn:G.
      * apply (dget_Some_in key_eqb_spec) in G. assert (In (Some h) (dkeys d)) by (unfold dkeys; apply in_map_iff; exists (Some h, z); now split).
        split; [intros [H1|(g & -> & H2)]; [now left|right; exists g; split; [reflexivity|now right]]|].
        intros [H1|(g & -> & [<-|H2])]; [now left|now left|right; now exists g].
      * rewrite in_app_iff. cbn. split.
        { intros [[H|[H|[]]]|(g & -> & H)]; [now left|right; exists h; split; [congruence|now left]|right; exists g; split; [reflexivity|now right]]. }
        intros [H|(g & -> & [<-|H])]; [now left; left|left; right; now left|right; now exists g].
Qed.

(** ** C183 *)

Lemma keys_get d s kvs : NoDup (dkeys d) -> In (s, kvs) d -> section_of d s = kvs.
Proof. intros N I. unfold section_of. now rewrite (dget_in_nodup key_eqb_spec d s kvs N I). Qed.
(** All dicts inside have no key twice *)
Lemma put_nodup l : forall d d', put l d = Ok d' -> NoDup (dkeys d) -> (forall s, NoDup (dkeys (section_of d s))) ->
  NoDup (dkeys d') /\ forall s, NoDup (dkeys (section_of d' s)).
Proof.
  induction l as [|[c [k v]] r IH]; intros d d' P N M; cbn [put] in P; [assert (d' = d) as -> by congruence; now split|].
  destruct (unset_value v); [now apply (IH d)|]. destruct c as [c|]; [|discriminate]. apply (IH _ _ P).
  - now apply (NoDup_dset key_eqb_spec).
  - intros s. unfold section_of at 1. rewrite (dget_dset key_eqb_spec). destruct (key_eqb s (Some c)); [|apply M]. apply (NoDup_dset String.eqb_spec), M.
Qed.
Lemma value_get d : NoDup (dkeys d) -> (forall s, NoDup (dkeys (section_of d s))) -> forall s k v, value d s k v <-> get2 d s k = Some v.
Proof.
  intros N M s k v. unfold value, get2. split.
  - intros (kvs & A & B). apply (dget_in_nodup String.eqb_spec); [apply M|]. now rewrite (keys_get d s kvs N A).
  - intros G. apply (dget_Some_in String.eqb_spec) in G. unfold section_of in G. destruct (dget key_eqb d s) as [kvs|] eqn:D; [|destruct G].
    exists kvs. split; [now apply (dget_Some_in key_eqb_spec) in D|exact G].
Qed.
Lemma tagged_in es : forall cur c kv, In (Some c, kv) (tagged cur es) -> cur = Some c \/ In c (headers es).
Proof.
  induction es as [|e es IH]; intros cur c kv; [intros []|]. destruct e as [|t|k v]; cbn [tagged headers flat_map app].
  - intros I. apply (IH _ _ _ I).
  - intros I. right. destruct (IH _ _ _ I) as [H|H]; [left; congruence|now right].
  - intros [E|I]; [left; congruence|]. apply (IH _ _ _ I).
Qed.
Lemma preset_ok hs : NoDup (dkeys (preset hs)) /\ (forall s, section_of (preset hs) s = []) /\ forall s, In s (dkeys (preset hs)) <-> exists h, s = Some h /\ In h hs.
Proof.
  destruct (preset_acc hs []) as (A & B & C); [constructor|intros x y []|]. split; [exact A|]. split.
  - intros s. unfold section_of. destruct (dget key_eqb (preset hs) s) as [z|] eqn:G; [|reflexivity]. apply (dget_Some_in key_eqb_spec) in G. apply (B _ _ G).
  - intros s. unfold preset. rewrite C. cbn. tauto.
Qed.

(** A file with sections: the keys are the headers, and a parameter has the last value given to it in a section of that header which counts *)
Theorem C183_sections : forall section lines es d, Forall2 reads lines es -> headers es <> [] -> clean_inlist_file section lines = Ok d ->
  NoDup (map fst d) /\
  (forall s, In s (map fst d) <-> exists h, s = Some h /\ In h (headers es)) /\
  (forall s k v, value d s k v <-> last_set (tagged None es) s k v).
Proof.
  intros section lines es d F H R. apply reads_lines in F as ->. unfold clean_inlist_file in R. rewrite list_headers in R.
  destruct (headers (map classify lines)) as [|h hs] eqn:E; [congruence|]. fold (preset (h :: hs)) in R. rewrite walk_put in R.
  destruct (preset_ok (h :: hs)) as (A & B & C).
  assert (K : dkeys d = dkeys (preset (h :: hs))).
  { apply (put_keys _ _ _ R). intros c kv I. apply C. exists c. split; [reflexivity|]. rewrite <- E. now destruct (tagged_in _ _ _ _ I). }
  destruct (put_nodup _ _ _ R) as [N M]; [exact A|intros s; rewrite B; constructor|].
  split; [exact N|]. split; [intros s; change (map fst d) with (dkeys d); rewrite K; apply C|].
  intros s k v. rewrite (value_get d N M), (put_get _ _ _ R). split; [|now left]. intros [L|[G _]]; [exact L|]. unfold get2 in G. rewrite B in G. discriminate.
Qed.
(** It raises just if a value which counts is given before the first section, and there is a section later *)
Theorem C183_before : forall section lines es e, Forall2 reads lines es ->
  (clean_inlist_file section lines = Raise e <->
   e = OtherError "UnboundLocalError" /\ headers es <> [] /\ exists k v, In (None, (k, v)) (tagged None es) /\ counts (k, v)).
Proof.
  intros section lines es e F. apply reads_lines in F as ->. unfold clean_inlist_file. rewrite list_headers.
  destruct (headers (map classify lines)) as [|h hs] eqn:E; [split; [discriminate|intros (_ & [] & _); reflexivity]|].
  rewrite walk_put, put_raise. split.
  - intros [-> (a & k & v & b & T & C)]. split; [reflexivity|]. split; [discriminate|]. exists k, v. split; [rewrite T; apply in_or_app; right; now left|exact C].
  - intros (-> & _ & k & v & I & C). split; [reflexivity|]. apply in_split in I as (a & b & T). exists a, k, v, b. now split.
Qed.
(** A file without sections *)
Lemma last_plain l : forall d k v, dget String.eqb (dset_all String.eqb d (filter (fun kv => negb (unset_value (snd kv))) l)) k = Some v <->
  last_set (map (fun kv => (None, kv)) l) None k v \/ (dget String.eqb d k = Some v /\ forall v', In (k, v') l -> ~ counts (k, v')).
Proof.
  induction l as [|[k0 v0] r IH]; intros d k v.
  - cbn. split; [intros H; right; split; [exact H|intros v' []]|]. intros [(a & b & E & _)|[H _]]; [destruct a; discriminate|exact H].
  - cbn [filter snd map]. destruct (unset_value v0) eqn:U; cbn [negb].
    + rewrite IH. assert (NC : forall k, ~ counts (k, v0)).
      { intros k1 C. rewrite (proj2 (unset_iff v0)) in U; [discriminate|]. intros k2. exact C. }
      split.
      * intros [(a & b & E & C & L)|[H N]]; [left; exists ((None, (k0, v0)) :: a), b; rewrite E; split; [reflexivity|]; split; assumption|].
        right. split; [exact H|]. intros v' [E|I]; [|now apply N]. assert (v' = v0) as -> by congruence. apply NC.
      * intros [(a & b & E & C & L)|[H N]]; [left|right; split; [exact H|intros v' I; apply N; now right]].
        destruct a as [|x a]; cbn in E; [assert (v = v0) as -> by congruence; exfalso; now apply (NC k)|]. exists a, b. split; [congruence|]. split; assumption.
    + unfold dset_all. cbn [fold_left fst snd]. fold (dset_all String.eqb (dset String.eqb d k0 v0) (filter (fun kv => negb (unset_value (snd kv))) r)).
      rewrite IH, (dget_dset String.eqb_spec). assert (CV : forall k, counts (k, v0)) by now apply unset_iff. split.
      * intros [(a & b & E & C & L)|[H N]]; [left; exists ((None, (k0, v0)) :: a), b; rewrite E; split; [reflexivity|]; split; assumption|].
        destruct (String.eqb_spec k k0) as [->|NK].
        { left. assert (v0 = v) as -> by congruence. exists [], (map (fun kv => (None, kv)) r). split; [reflexivity|]. split; [apply CV|].
          intros v' I. apply in_map_iff in I as (kv & Q & I). apply N. congruence. }
        right. split; [exact H|]. intros v' [E|I]; [congruence|now apply N].
      * intros [(a & b & E & C & L)|[H N]].
        { destruct a as [|x a]; cbn in E.
          - right. assert (k = k0) as -> by congruence. assert (v = v0) as -> by congruence. rewrite String.eqb_refl. split; [reflexivity|].
            intros v' I. apply L. assert (b = map (fun kv => (None, kv)) r) as -> by congruence. apply in_map_iff. now exists (k0, v').
          - left. exists a, b. split; [congruence|]. split; assumption. }
        right. split; [|intros v' I; apply N; now right]. destruct (String.eqb_spec k k0) as [->|]; [|exact H]. exfalso. apply (N v0); [now left|apply CV].
Qed.
Theorem C183_plain : forall section lines es, Forall2 reads lines es -> headers es = [] ->
  exists kvs, clean_inlist_file section lines = Ok [(section, kvs)] /\ NoDup (map fst kvs) /\ forall k v, In (k, v) kvs <-> last_set (tagged None es) None k v.
Proof.
  intros section lines es F H. apply reads_lines in F as ->. unfold clean_inlist_file. rewrite list_headers, H. eexists. split; [reflexivity|].
  assert (T : map (fun kv => (@None string, kv)) (map key_value (param_value_list lines)) = tagged None (map classify lines)).
  { clear -H. unfold param_value_list. induction lines as [|x l IH]; [reflexivity|]. cbn [map filter headers flat_map] in *. unfold classify in H at 1. unfold relevant, classify at 1.
    destruct (py_in "&" (clean_line x)); [discriminate|]. rewrite orb_false_r. destruct (py_in "=" (clean_line x)) eqn:B.
    - assert (E : String.eqb (clean_line x) "" = false). { apply String.eqb_neq. intros K. rewrite K in B. discriminate. }
      rewrite E. cbn [negb andb map tagged]. rewrite <- surjective_pairing. f_equal. now apply IH.
    - rewrite andb_false_r. cbn [tagged]. now apply IH. }
  assert (N : NoDup (dkeys (dset_all String.eqb [] (filter (fun kv : string * string => negb (unset_value (snd kv))) (map key_value (param_value_list lines)))))).
  { apply (NoDup_dset_all String.eqb_spec). constructor. }
  split; [exact N|]. intros k v. rewrite <- T. set (l := map key_value (param_value_list lines)) in *. split.
  - intros I. apply (dget_in_nodup String.eqb_spec) in I; [|exact N]. apply last_plain in I as [L|[D _]]; [exact L|discriminate].
  - intros L. apply (dget_Some_in String.eqb_spec). apply last_plain. now left.
Qed.

(** An empty text does not take an earlier value back *)
Theorem C183_reset_refuted : exists d, clean_inlist_file None ["&controls"; "a = 'x'"; "a = ''"] = Ok d /\
  value d (Some "&controls") "a" "'x'".
Proof. eexists. split; [vm_compute; reflexivity|]. eexists. split; [left; reflexivity|]. left. reflexivity. Qed.
(** Quotes are not seen: an ampersand inside a text starts a section, and an exclamation mark inside a text starts a comment *)
Theorem C183_quotes_refuted : exists d, clean_inlist_file None ["&controls"; "a = 'x&y'"; "b = 1"; "c = 'p!q'"] = Ok d /\
  (forall v, ~ value d (Some "&controls") "a" v) /\ (forall v, ~ value d (Some "&controls") "b" v) /\
  value d (Some "a = 'x&y'") "b" "1" /\ value d (Some "a = 'x&y'") "c" "'p".
Proof.
  eexists. split; [vm_compute; reflexivity|]. split; [|split; [|split]].
  - intros v (kvs & [E|[E|[]]] & I); [|discriminate]. assert (kvs = []) as -> by congruence. destruct I.
  - intros v (kvs & [E|[E|[]]] & I); [|discriminate]. assert (kvs = []) as -> by congruence. destruct I.
  - eexists. split; [right; left; reflexivity|]. left. reflexivity.
  - eexists. split; [right; left; reflexivity|]. right. left. reflexivity.
Qed.

(** A template as they are, read as the specification says *)
Definition TEMPLATE := ["&controls ! the star"; ""; "  a = 1.5d0 ! first"; "b = ''"; "/"; "&star_job"; "  a=2"; "&controls"; "a = 3 = 4"; "/ ! end"].
Example C183_case : exists es d, Forall2 reads TEMPLATE es /\ clean_inlist_file None TEMPLATE = Ok d /\ headers es = ["&controls"; "&star_job"; "&controls"] /\
  value d (Some "&controls") "a" "3 = 4" /\ value d (Some "&star_job") "a" "2" /\ (forall v, ~ value d (Some "&controls") "b" v).
Proof.
  exists (map classify TEMPLATE). eexists. split; [|split; [vm_compute; reflexivity|]].
  - induction TEMPLATE as [|x l IH]; constructor; [now apply reads_classify|exact IH].
  - split; [vm_compute; reflexivity|]. split; [|split].
    + eexists. split; [left; reflexivity|]. left. reflexivity.
    + eexists. split; [right; left; reflexivity|]. left. reflexivity.
    + intros v (kvs & [E|[E|[]]] & I); [|discriminate]. assert (kvs = [("a", "3 = 4")]) as -> by congruence. destruct I as [I|[]]; discriminate.
Qed.
Example C183_before_case : clean_inlist_file None ["x = 1"; "&controls"] = Raise (OtherError "UnboundLocalError").
Proof. vm_compute. reflexivity. Qed.
Example C183_plain_case : clean_inlist_file (Some "&controls") ["x = 1"; "y = '.'"; "x = 2 ! again"] = Ok [(Some "&controls", [("x", "2")])].
Proof. vm_compute. reflexivity. Qed.

Print Assumptions C183_lines.
Print Assumptions C183_sections.
Print Assumptions C183_before.
Print Assumptions C183_plain.
Print Assumptions C183_reset_refuted.
Print Assumptions C183_quotes_refuted.
