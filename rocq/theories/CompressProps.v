(** C167 to C169: compressing the files of MESA runs. *)
From Coq Require Import FinFun String Ascii Bool List Arith ZArith QArith Qpower Lia Lqa.
From Verif Require Import PyBase PyStr CompressModel.
Import ListNotations.
Open Scope nat_scope.
Open Scope list_scope.
Open Scope string_scope.

(** ** Specification: which names are removed, which are compressed *)
Fixpoint dotless (s : string) : Prop := match s with EmptyString => True | String c r => c <> "."%char /\ dotless r end.
Fixpoint only_dots (s : string) : Prop := match s with EmptyString => True | String c r => c = "."%char /\ only_dots r end.
Definition Dump (n : string) : Prop := n = "core" \/ exists e, dotless e /\ n = "core." ++ e.
Definition Text (n : string) : Prop := ~ Dump n /\ exists a, ~ only_dots a /\ (n = a ++ ".data" \/ n = a ++ ".mod" \/ n = a ++ ".txt").
Definition Run (p : string) : Prop := exists a b, p = a ++ "_grid_index_" ++ b.

(** ** Strings *)
Lemma app_s_assoc : forall a b c : string, (a ++ b) ++ c = a ++ (b ++ c).
Proof. induction a as [|x a IH]; intros; cbn; [reflexivity|rewrite IH; reflexivity]. Qed.
Lemma app_s_nil : forall a : string, a ++ "" = a.
Proof. induction a as [|x a IH]; cbn; [reflexivity|rewrite IH; reflexivity]. Qed.
Lemma len_app : forall a b : string, String.length (a ++ b) = String.length a + String.length b.
Proof. induction a; intros; cbn; [reflexivity|rewrite IHa; reflexivity]. Qed.
Lemma app_inv_tail : forall a b c : string, a ++ c = b ++ c -> a = b.
Proof.
  induction a as [|x a IH]; intros [|y b] c H; cbn in H; [reflexivity| | |].
  - apply (f_equal String.length) in H. cbn in H. rewrite len_app in H. lia.
  - apply (f_equal String.length) in H. cbn in H. rewrite len_app in H. lia.
  - assert (x = y) by congruence. assert (a ++ c = b ++ c) by congruence. f_equal; [assumption|apply (IH b c); assumption].
Qed.
Lemma last_dot_spec : forall s, match last_dot s with
  | Some (a, b) => exists e, b = String "." e /\ dotless e /\ s = a ++ b
  | None => dotless s end.
Proof.
  induction s as [|c s IH]; cbn; [exact I|]. destruct (last_dot s) as [[a b]|].
  - destruct IH as (e & B & D & S). exists e. repeat split; [exact B|exact D|]. cbn. congruence.
  - destruct (Ascii.eqb_spec c "."); [exists s; subst; repeat split; exact IH|split; assumption].
Qed.
Lemma dot_dotted : forall a e, ~ dotless (a ++ String "." e).
Proof. induction a as [|c a IH]; intros e H; cbn in H; destruct H as [H1 H2]; [congruence|exact (IH e H2)]. Qed.
Lemma last_dot_unique : forall a e a' e', dotless e -> dotless e' -> a ++ String "." e = a' ++ String "." e' -> a = a' /\ e = e'.
Proof.
  induction a as [|c a IH]; intros e [|c' a'] e' D D' H; cbn in H.
  - split; congruence.
  - exfalso. assert (e = a' ++ String "." e') by congruence. subst e. exact (dot_dotted _ _ D).
  - exfalso. assert (a ++ String "." e = e') by congruence. subst e'. exact (dot_dotted _ _ D').
  - destruct (IH e a' e' D D') as [A B]; [congruence|]. split; [|exact B]. congruence.
Qed.
Lemma last_dot_of : forall a e, dotless e -> last_dot (a ++ String "." e) = Some (a, String "." e).
Proof.
  intros a e D. pose proof (last_dot_spec (a ++ String "." e)) as H. destruct (last_dot _) as [[a' b]|].
  - destruct H as (e' & -> & D' & S). destruct (last_dot_unique _ _ _ _ D D' S) as [-> ->]. reflexivity.
  - exfalso. exact (dot_dotted _ _ H).
Qed.
Lemma all_dots_iff : forall s, all_dots s = true <-> only_dots s.
Proof.
  induction s as [|c s IH]; cbn; [tauto|]. rewrite andb_true_iff, Ascii.eqb_eq, IH. tauto.
Qed.
Lemma splitext_of : forall a e, dotless e -> ~ only_dots a -> splitext (a ++ String "." e) = (a, String "." e).
Proof.
  intros a e D O. unfold splitext. rewrite (last_dot_of a e D). destruct (all_dots a) eqn:E; [exfalso; apply O, all_dots_iff, E|reflexivity].
Qed.
Lemma remove_iff : forall n, to_remove n = true <-> Dump n.
Proof.
  intro n. unfold to_remove. rewrite String.eqb_eq. split.
  - unfold splitext. pose proof (last_dot_spec n) as H. destruct (last_dot n) as [[a b]|].
    + destruct H as (e & -> & D & S). destruct (all_dots a); cbn; intro E; [left; exact E|]. right. exists e. split; [exact D|]. subst a. exact S.
    + intro E. left. exact E.
  - intros [-> |(e & D & ->)]; [reflexivity|]. change ("core." ++ e) with ("core" ++ String "." e). rewrite (splitext_of "core" e D); [reflexivity|]. cbn. intros [H _]. discriminate.
Qed.
Lemma compress_iff : forall n, to_compress n = true <-> Text n.
Proof.
  intro n. unfold to_compress, Text. rewrite andb_true_iff, negb_true_iff. rewrite <- not_true_iff_false, remove_iff. split; intros [A B]; (split; [exact A|]).
  - apply existsb_exists in B. destruct B as (x & I & B). apply String.eqb_eq in B. unfold splitext in B. pose proof (last_dot_spec n) as H.
    destruct (last_dot n) as [[a b]|]; cbn [snd] in B.
    + destruct H as (e & -> & D & S). destruct (all_dots a) eqn:O.
      * cbn [snd] in B. subst x. destruct I as [I|[I|[I|[]]]]; discriminate.
      * exists a. split; [intro Q; apply all_dots_iff in Q; congruence|]. cbn [snd] in B. rewrite B in S. destruct I as [<-|[<-|[<-|[]]]]; tauto.
    + subst x. destruct I as [I|[I|[I|[]]]]; discriminate.
  - destruct B as (a & O & B). apply existsb_exists.
    assert (S : forall e, dotless e -> n = a ++ String "." e -> snd (splitext n) = String "." e).
    { intros e D ->. rewrite (splitext_of a e D O). reflexivity. }
    assert (P : dotless "data" /\ dotless "mod" /\ dotless "txt") by (cbn; repeat split; discriminate).
    destruct P as (P1 & P2 & P3). exists (snd (splitext n)). split; [|apply String.eqb_refl].
    destruct B as [B|[B|B]]; [rewrite (S "data" P1 B)|rewrite (S "mod" P2 B)|rewrite (S "txt" P3 B)]; cbn; tauto.
Qed.
Lemma run_iff : forall p, py_in MARK p = true <-> Run p.
Proof. intro p. apply py_in_iff. Qed.
Lemma ends_iff : forall suf s, ends_with suf s = true <-> exists a, s = a ++ suf.
Proof.
  intros suf s. induction s as [|c s IH]; cbn [ends_with]; rewrite orb_true_iff, String.eqb_eq.
  - split; [intros [-> |H]; [exists ""; reflexivity|discriminate]|]. intros ([|x a] & H); [left; symmetry; exact H|discriminate].
  - rewrite IH. split.
    + intros [-> |(a & ->)]; [exists ""; reflexivity|exists (String c a); reflexivity].
    + intros ([|x a] & H); [left; symmetry; exact H|right; exists a; cbn in H; congruence].
Qed.

(** ** C167: what is selected *)
Definition total_bytes (t : tree) : nat := fold_right (fun d k => fold_right (fun e k => match snd e with Regular b => String.length b | Link _ => 0 end + k) 0 (snd d) + k) 0 t.
Lemma sum_map : forall A (f : A -> nat) l, sum (map f l) = fold_right (fun x k => f x + k) 0 l.
Proof. induction l as [|x l IH]; cbn; [reflexivity|]. unfold sum in IH. rewrite IH. reflexivity. Qed.
Lemma selected_in : forall sel t p ns, NoDup (map fst t) -> In (p, ns) (selected sel t) <-> ns <> [] /\ Run p /\ exists es, In (p, es) t /\ ns = filter sel (map fst es).
Proof.
  intros sel t p ns _. unfold selected. rewrite filter_In, in_map_iff. cbn [snd]. rewrite negb_true_iff, Nat.eqb_neq. split.
  - intros [((q & es) & E & I) L]. cbn [fst snd] in E. assert (q = p) by congruence. subst q.
    destruct (py_in MARK p) eqn:M; [|assert (ns = []) by congruence; subst; cbn in L; lia].
    split; [intros ->; cbn in L; lia|]. split; [apply run_iff, M|]. exists es. split; [exact I|congruence].
  - intros (N & R & es & I & ->). apply run_iff in R. split; [exists (p, es); cbn [fst snd]; rewrite R; auto|]. destruct (filter sel (map fst es)); [congruence|cbn; lia].
Qed.
(** The names listed for removal (compression) are exactly those of dumps (texts) in runs, directory by directory and in order. *)
Theorem C167_selected : forall t, NoDup (map fst t) ->
  (forall p n, (exists ns, In (p, ns) (remove_files (get_size t)) /\ In n ns) <-> Run p /\ Dump n /\ exists es f, In (p, es) t /\ In (n, f) es) /\
  (forall p n, (exists ns, In (p, ns) (compress_files (get_size t)) /\ In n ns) <-> Run p /\ Text n /\ exists es f, In (p, es) t /\ In (n, f) es).
Proof.
  assert (G : forall sel (P : string -> Prop), (forall n, sel n = true <-> P n) -> forall t, NoDup (map fst t) -> forall p n,
    (exists ns, In (p, ns) (selected sel t) /\ In n ns) <-> Run p /\ P n /\ exists es f, In (p, es) t /\ In (n, f) es).
  { intros sel P S t N p n. split.
    - intros (ns & I & J). apply (selected_in sel t p ns N) in I. destruct I as (_ & R & es & I & ->). apply filter_In in J. destruct J as [J K].
      split; [exact R|]. split; [apply S, K|]. apply in_map_iff in J. destruct J as ((n' & f) & <- & J). exists es, f. auto.
    - intros (R & Q & es & f & I & J). assert (K : In n (filter sel (map fst es))).
      { apply filter_In. split; [apply in_map_iff; exists (n, f); auto|apply S, Q]. }
      exists (filter sel (map fst es)). split; [|exact K]. apply selected_in; [exact N|]. split; [intro E; rewrite E in K; destruct K|]. eauto. }
  intros t N. split; [apply (G to_remove Dump remove_iff t N)|apply (G to_compress Text compress_iff t N)].
Qed.
Theorem C167_counts : forall t, total (get_size t) = total_bytes t /\
  n_remove (get_size t) = List.length (List.concat (map snd (remove_files (get_size t)))) /\
  n_compress (get_size t) = List.length (List.concat (map snd (compress_files (get_size t)))).
Proof.
  assert (C : forall l, count l = List.length (List.concat (map snd l))).
  { induction l as [|d l IH]; [reflexivity|]. cbn [map concat]. rewrite app_length, <- IH. reflexivity. }
  intro t. split; [|split; apply C]. cbn [get_size total]. unfold total_size, total_bytes. rewrite sum_map. induction t as [|d t IH]; [reflexivity|].
  cbn [fold_right]. rewrite IH, sum_map. reflexivity.
Qed.
Print Assumptions C167_selected.

(** ** The loops *)
Definition mem (l : list (string * string)) (p n : string) : bool := existsb (fun x => String.eqb (fst x) p && String.eqb (snd x) n) l.
Lemma mem_iff : forall l p n, mem l p n = true <-> In (p, n) l.
Proof.
  intros l p n. unfold mem. rewrite existsb_exists. split.
  - intros ((p', n') & I & E). cbn in E. apply andb_true_iff in E. destruct E as [A B]. apply String.eqb_eq in A, B. subst. exact I.
  - intro I. exists (p, n). cbn. rewrite !String.eqb_refl. auto.
Qed.
Definition del (S : string -> string -> bool) (t : tree) : tree := map (fun d => (fst d, filter (fun e => negb (S (fst d) (fst e))) (snd d))) t.
Lemma filter_filter : forall A (f g : A -> bool) l, filter f (filter g l) = filter (fun x => g x && f x) l.
Proof. induction l as [|x l IH]; [reflexivity|]. cbn. destruct (g x); cbn; [destruct (f x)|]; rewrite IH; reflexivity. Qed.
Lemma del_del : forall S S' t, del S (del S' t) = del (fun p n => S' p n || S p n) t.
Proof.
  intros. unfold del. rewrite map_map. apply map_ext. intros [p es]. cbn. f_equal. rewrite filter_filter. apply filter_ext. intro e. rewrite negb_orb. reflexivity.
Qed.
Lemma del_ext : forall S S' t, (forall p n, S p n = S' p n) -> del S t = del S' t.
Proof. intros S S' t H. unfold del. apply map_ext. intros [p es]. cbn. f_equal. apply filter_ext. intro e. rewrite H. reflexivity. Qed.
Lemma del_none : forall t, del (mem []) t = t.
Proof.
  intro t. unfold del. rewrite <- (map_id t) at 2. apply map_ext. intros [p es]. cbn. f_equal. induction es as [|e es IH]; [reflexivity|]. cbn. rewrite IH. reflexivity.
Qed.
Lemma lookup_map : forall (g : string -> entries -> entries) t p n, lookup (map (fun d => (fst d, g (fst d) (snd d))) t) p n =
  match find (fun d => String.eqb (fst d) p) t with Some d => match find (fun e => String.eqb (fst e) n) (g p (snd d)) with Some e => Some (snd e) | None => None end | None => None end.
Proof.
  intros g t p n. unfold lookup. induction t as [|[q es] t IH]; [reflexivity|]. cbn [map find fst snd]. destruct (String.eqb_spec q p) as [-> |Q]; [reflexivity|exact IH].
Qed.
Lemma lookup_del : forall S t p n, S p n = false -> lookup (del S t) p n = lookup t p n.
Proof.
  intros S t p n H. unfold del. rewrite (lookup_map (fun q es => filter (fun e => negb (S q (fst e))) es)). unfold lookup. destruct (find (fun x => String.eqb (fst x) p) t) as [[q es]|] eqn:F; [|reflexivity].
  apply find_some in F. destruct F as [_ F]. cbn in F. apply String.eqb_eq in F. subst q. cbn [fst snd].
  replace (find (fun e : string * file => String.eqb (fst e) n) (filter (fun e : string * file => negb (S p (fst e))) es)) with (find (fun e : string * file => String.eqb (fst e) n) es); [reflexivity|].
  induction es as [|e es IH]; [reflexivity|]. cbn. destruct (String.eqb_spec (fst e) n) as [E|E].
  - rewrite E, H. cbn. rewrite E, String.eqb_refl. reflexivity.
  - destruct (negb (S p (fst e))); [cbn; destruct (String.eqb_spec (fst e) n); [contradiction|exact IH]|exact IH].
Qed.
Lemma removing_all : forall l t, NoDup l -> (forall p n, In (p, n) l -> present t p n = true) -> removing (fun _ _ => true) t l = (del (mem l) t, None).
Proof.
  induction l as [|[p n] l IH]; intros t N H; [cbn; rewrite del_none; reflexivity|]. cbn [removing]. rewrite (H p n) by (left; reflexivity).
  inversion N as [|? ? Na Nl]; subst.
  assert (E : remove t p n = del (mem [(p, n)]) t).
  { apply map_ext. intros [q es]. cbn. f_equal. apply filter_ext. intro e. rewrite orb_false_r. f_equal. rewrite (String.eqb_sym q p), (String.eqb_sym (fst e) n). reflexivity. }
  rewrite E, IH.
  - f_equal. rewrite del_del. apply del_ext. intros q m. cbn. rewrite orb_false_r. reflexivity.
  - exact Nl.
  - intros q m I. unfold present. rewrite lookup_del; [apply H; right; exact I|]. destruct (mem [(p, n)] q m) eqn:M; [|reflexivity]. apply mem_iff in M. destruct M as [M|[]]. congruence.
Qed.
Section Zip.
  Variable deflate : string -> string.
  Definition zipped (e : string * file) : string * file := match snd e with Regular b => (fst e ++ ".gz", Regular (deflate b)) | Link a => e end.
  Definition zip (S : string -> string -> bool) (t : tree) : tree := map (fun d => (fst d, map (fun e => if S (fst d) (fst e) then zipped e else e) (snd d))) t.
  Lemma lookup_zip : forall S t p n, S p n = false -> ends_with ".gz" n = false -> lookup (zip S t) p n = lookup t p n.
  Proof using.
    intros S t p n H Z. unfold zip. rewrite (lookup_map (fun q es => map (fun e => if S q (fst e) then zipped e else e) es)). unfold lookup. destruct (find (fun x => String.eqb (fst x) p) t) as [[q es]|] eqn:F; [|reflexivity].
    apply find_some in F. destruct F as [_ F]. cbn in F. apply String.eqb_eq in F. subst q. cbn [fst snd].
    match goal with |- match ?x with _ => _ end = match ?y with _ => _ end => assert (E : x = y); [|rewrite E; reflexivity] end.
    induction es as [|e es IH]; [reflexivity|]. cbn [map find]. destruct (S p (fst e)) eqn:G.
    - destruct (String.eqb_spec (fst e) n) as [E|E]; [congruence|]. unfold zipped. destruct (snd e).
      + cbn [fst]. destruct (String.eqb_spec (fst e ++ ".gz") n) as [E'|E']; [|exact IH]. assert (ends_with ".gz" n = true) by (apply ends_iff; exists (fst e); congruence). congruence.
      + destruct (String.eqb_spec (fst e) n); [contradiction|exact IH].
    - destruct (String.eqb (fst e) n); [reflexivity|exact IH].
  Qed.
  Definition files_at (t : tree) (p n : string) (f : file) : Prop := exists es, In (p, es) t /\ In (n, f) es.
  Variable t : tree.
  (** Each path is of one file. *)
  Hypothesis one : forall p n f p' n' f', files_at t p n f -> files_at t p' n' f' -> join p n = join p' n' -> p = p' /\ n = n'.
  Hypothesis paths : NoDup (map fst t).
  Hypothesis names : forall p es, In (p, es) t -> NoDup (map fst es).
  Lemma lookup_in : forall p n f, files_at t p n f -> lookup t p n = Some f.
  Proof using paths names.
    intros p n f (es & I & J). unfold lookup.
    assert (F : find (fun d => String.eqb (fst d) p) t = Some (p, es)).
    { clear names one. induction t as [|[q es'] r IH]; [destruct I|]. cbn. cbn in paths. inversion paths as [|? ? Na Nl]; subst. destruct I as [I|I].
      - assert (q = p) by congruence. assert (es' = es) by congruence. subst. rewrite String.eqb_refl. reflexivity.
      - destruct (String.eqb_spec q p) as [-> |Q]; [|apply IH; assumption]. exfalso. apply Na. apply in_map_iff. exists (p, es). auto. }
    rewrite F. cbn [snd]. pose proof (names p es I) as N. clear F I.
    assert (F : find (fun e : string * file => String.eqb (fst e) n) es = Some (n, f)); [|rewrite F; reflexivity].
    induction es as [|[m g] r IH]; [destruct J|]. cbn. cbn in N. inversion N as [|? ? Na Nl]; subst. destruct J as [J|J].
    - assert (m = n) by congruence. assert (g = f) by congruence. subst. rewrite String.eqb_refl. reflexivity.
    - destruct (String.eqb_spec m n) as [-> |Q]; [|apply IH; assumption]. exfalso. apply Na. apply in_map_iff. exists (n, f). auto.
  Qed.
  Lemma join_gz : forall p n, ends_with ".gz" (join p (n ++ ".gz")) = true.
  Proof using.
    intros p n. apply ends_iff. unfold join. destruct (String.eqb p ""); [exists n; reflexivity|]. destruct (ends_with "/" p).
    - exists (p ++ n). rewrite app_s_assoc. reflexivity.
    - exists (p ++ "/" ++ n). rewrite !app_s_assoc. reflexivity.
  Qed.
  Lemma zip_step : forall S p n b, files_at t p n (Regular b) -> S p n = false -> ends_with ".gz" (join p n) = false ->
    (forall f, ~ files_at t p (n ++ ".gz") f) ->
    gzip deflate (zip S t) (join p n) = zip (fun p' n' => S p' n' || (String.eqb p' p && String.eqb n' n)) t.
  Proof using one paths names.
    intros S p n b F NS Z NG. unfold gzip. rewrite Z. unfold zip. rewrite map_map. apply map_ext_in. intros [q es] I. cbn [fst snd]. f_equal. rewrite map_map.
    apply map_ext_in. intros [m g] J. cbn [fst snd]. assert (A : files_at t q m g) by (exists es; auto). destruct (S q m) eqn:Sq; cbn [orb].
    - unfold zipped at 1 2. cbn [snd fst]. destruct g as [b'|a]; cbn [fst snd].
      + destruct (String.eqb_spec (join q (m ++ ".gz")) (join p n)) as [E|E]; [|unfold zipped; reflexivity]. pose proof (join_gz q m). congruence.
      + cbn [fst]. destruct (String.eqb_spec (join q m) (join p n)) as [E|E]; [|reflexivity]. destruct (one _ _ _ _ _ _ A F E). congruence.
    - cbn [fst]. destruct (String.eqb_spec (join q m) (join p n)) as [E|E].
      + destruct (one _ _ _ _ _ _ A F E) as [-> ->]. rewrite !String.eqb_refl. cbn [andb]. unfold zip_entry, zipped. cbn [fst snd].
        assert (g = Regular b) by (pose proof (lookup_in _ _ _ A); pose proof (lookup_in _ _ _ F); congruence). subst g.
        match goal with |- context [existsb ?f ?l] => destruct (existsb f l) eqn:X end; [|reflexivity]. exfalso.
        apply existsb_exists in X. destruct X as (x & X1 & X2). apply String.eqb_eq in X2. apply in_map_iff in X1. destruct X1 as ((k & h) & X1 & X3). cbn [fst] in X1.
        destruct (S p k) eqn:Sk.
        * unfold zipped in X1. cbn [fst snd] in X1. destruct h as [b'|a].
          -- rewrite <- X1 in X2. cbn [fst] in X2. apply app_inv_tail in X2. congruence.
          -- rewrite <- X1 in X2. cbn [fst] in X2. subst k. apply (NG (Link a)). exists es. auto.
        * rewrite <- X1 in X2. cbn [fst] in X2. subst k. apply (NG h). exists es. auto.
      + destruct (String.eqb_spec q p) as [-> |Q]; [|reflexivity]. destruct (String.eqb_spec m n) as [-> |M]; [congruence|reflexivity].
  Qed.
  Lemma zip_ext : forall S S', (forall p n, S p n = S' p n) -> zip S t = zip S' t.
  Proof using. intros S S' H. unfold zip. apply map_ext. intros [p es]. cbn. f_equal. apply map_ext. intro e. rewrite H. reflexivity. Qed.
  Lemma compressing_all : forall bound l done, NoDup (done ++ l)%list ->
    (forall p n, In (p, n) l -> (exists b, files_at t p n (Regular b)) /\ words (join p n) = [join p n] /\ ends_with ".gz" (join p n) = false /\ ends_with ".gz" n = false /\
       forall f, ~ files_at t p (n ++ ".gz") f) ->
    compressing deflate bound (zip (mem done) t) l = (zip (mem (done ++ l)%list) t, None).
  Proof using one paths names.
    intros bound l. induction l as [|[p n] l IH]; intros done N H; [cbn; rewrite app_nil_r; reflexivity|].
    destruct (H p n (or_introl eq_refl)) as ((b & F) & W & Z & Z' & G). cbn [compressing].
    assert (NS : mem done p n = false).
    { destruct (mem done p n) eqn:M; [|reflexivity]. apply mem_iff in M. exfalso. apply NoDup_remove_2 in N. apply N. apply in_or_app. left. exact M. }
    unfold present. rewrite lookup_zip by assumption. rewrite (lookup_in _ _ _ F). cbn [is_file]. rewrite W. cbn [fold_left].
    rewrite (zip_step _ _ _ _ F NS Z G).
    rewrite (zip_ext _ (mem (done ++ [(p, n)])%list)).
    - replace (done ++ (p, n) :: l)%list with ((done ++ [(p, n)]) ++ l)%list by (rewrite <- app_assoc; reflexivity). apply IH.
      + rewrite <- app_assoc. exact N.
      + intros q m I. apply H. right. exact I.
    - intros q m. unfold mem. rewrite existsb_app. cbn. rewrite orb_false_r, (String.eqb_sym q p), (String.eqb_sym m n). reflexivity.
  Qed.
  Lemma zip_none : zip (mem []) t = t.
  Proof using. unfold zip. rewrite <- (map_id t) at 2. apply map_ext. intros [p es]. cbn. f_equal. rewrite map_id. reflexivity. Qed.
End Zip.
Lemma nodup_app : forall A (a b : list A), NoDup a -> NoDup b -> (forall x, In x a -> ~ In x b) -> NoDup (a ++ b)%list.
Proof.
  induction a as [|x a IH]; intros b Na Nb D; [exact Nb|]. inversion Na as [|? ? X Y]; subst. cbn. constructor.
  - intro I. apply in_app_or in I. destruct I as [I|I]; [contradiction|]. exact (D x (or_introl eq_refl) I).
  - apply IH; [exact Y|exact Nb|]. intros y I. apply D. right. exact I.
Qed.
Lemma flat_in : forall sel t p n, In (p, n) (flat (selected sel t)) <-> Run p /\ sel n = true /\ exists f, files_at t p n f.
Proof.
  intros sel t p n. unfold flat, selected. rewrite in_flat_map. split.
  - intros ((q & ns) & I & J). cbn [fst snd] in J. apply in_map_iff in J. destruct J as (m & E & J). assert (q = p) by congruence. assert (m = n) by congruence. subst.
    apply filter_In in I. destruct I as [I _]. apply in_map_iff in I. destruct I as ((q & es) & E' & I). cbn [fst snd] in E'. assert (q = p) by congruence. subst q.
    destruct (py_in MARK p) eqn:M; [|assert (ns = []) by congruence; subst; destruct J]. assert (ns = filter sel (map fst es)) by congruence. subst ns.
    apply filter_In in J. destruct J as [J K]. apply in_map_iff in J. destruct J as ((m & f) & Q & J). cbn in Q. subst m.
    split; [apply run_iff, M|]. split; [exact K|]. exists f, es. auto.
  - intros (R & S & f & es & I & J). apply run_iff in R. exists (p, filter sel (map fst es)).
    assert (K : In n (filter sel (map fst es))) by (apply filter_In; split; [apply in_map_iff; exists (n, f); auto|exact S]). split.
    + apply filter_In. split; [apply in_map_iff; exists (p, es); cbn [fst snd]; rewrite R; auto|]. cbn [snd]. destruct (filter sel (map fst es)); [destruct K|reflexivity].
    + cbn [fst snd]. apply in_map_iff. exists n. auto.
Qed.
Lemma flat_nodup : forall sel t, NoDup (map fst t) -> (forall p es, In (p, es) t -> NoDup (map fst es)) -> NoDup (flat (selected sel t)).
Proof.
  intros sel t. induction t as [|[p es] t IH]; intros N M; [constructor|]. cbn [map fst] in N. inversion N as [|? ? Na Nl]; subst.
  assert (T : NoDup (flat (selected sel t))) by (apply IH; [exact Nl|intros q e I; apply (M q e); right; exact I]).
  assert (E : NoDup (filter sel (map fst es))) by (apply NoDup_filter, (M p es); left; reflexivity).
  unfold selected in *. cbn [map filter fst snd]. destruct (py_in MARK p); [|exact T].
  destruct (negb (Nat.eqb (List.length (filter sel (map fst es))) 0)); [|exact T]. cbn [flat flat_map fst snd]. apply nodup_app.
  - apply Injective_map_NoDup; [intros a b Q; congruence|exact E].
  - exact T.
  - intros (q & n) I J. apply in_map_iff in I. destruct I as (m & Q & I). assert (q = p) by congruence. subst q.
    apply (flat_in sel t p n) in J. destruct J as (_ & _ & f & es' & J & _). apply Na. apply in_map_iff. exists (p, es'). auto.
Qed.
Lemma words_plain : forall s cur, py_in " " s = false -> words_from cur s = if String.eqb (cur ++ s) "" then [] else [cur ++ s].
Proof.
  induction s as [|c s IH]; intros cur H; cbn [words_from]; [rewrite app_s_nil; reflexivity|].
  cbn [py_in] in H. apply orb_false_iff in H. destruct H as [H1 H2]. destruct (Ascii.eqb_spec c " ") as [-> |C].
  - cbn in H1. destruct s; discriminate.
  - rewrite IH by exact H2. rewrite app_s_assoc. reflexivity.
Qed.
Lemma text_name : forall n, Text n -> n <> "" /\ (forall p, ends_with ".gz" (join p n) = false) /\ ends_with ".gz" n = false.
Proof.
  intros n (_ & a & O & H).
  assert (Z : forall x e, In e ["data"; "mod"; "txt"] -> ends_with ".gz" (x ++ String "." e) = false).
  { intros x e I. destruct (ends_with ".gz" (x ++ String "." e)) eqn:E; [|reflexivity]. exfalso. apply ends_iff in E. destruct E as (y & E).
    destruct (last_dot_unique x e y "gz") as [_ Q]; [|cbn; repeat split; discriminate|exact E|].
    - destruct I as [<-|[<-|[<-|[]]]]; cbn; repeat split; discriminate.
    - subst e. destruct I as [I|[I|[I|[]]]]; discriminate. }
  assert (X : exists e, In e ["data"; "mod"; "txt"] /\ n = a ++ String "." e).
  { destruct H as [H|[H|H]]; [exists "data"|exists "mod"|exists "txt"]; (split; [cbn; tauto|exact H]). }
  destruct X as (e & I & ->). split; [destruct a; discriminate|]. split; [|apply Z, I].
  intro p. unfold join. destruct (String.eqb p ""); [apply Z, I|]. destruct (ends_with "/" p).
  - rewrite <- app_s_assoc. apply Z, I.
  - rewrite <- !app_s_assoc. apply Z, I.
Qed.
Lemma join_nonempty : forall p n, n <> "" -> join p n <> "".
Proof.
  intros p n N. unfold join. destruct (String.eqb_spec p ""); [exact N|]. destruct p; [contradiction|]. destruct (ends_with "/" _); discriminate.
Qed.
Lemma files_del : forall S t p n f, files_at (del S t) p n f <-> files_at t p n f /\ S p n = false.
Proof.
  intros S t p n f. unfold files_at, del. split.
  - intros (es & I & J). apply in_map_iff in I. destruct I as ((q & es') & E & I). cbn [fst snd] in E. assert (q = p) by congruence. subst q.
    assert (es = filter (fun e => negb (S p (fst e))) es') by congruence. subst es. apply filter_In in J. destruct J as [J K]. apply negb_true_iff in K. eauto.
  - intros ((es & I & J) & H). exists (filter (fun e => negb (S p (fst e))) es). split; [apply in_map_iff; exists (p, es); auto|].
    apply filter_In. split; [exact J|]. cbn [fst]. rewrite H. reflexivity.
Qed.

(** ** C168: what a compression leaves *)
(** Directories that can be compressed: each path is of one directory or file, the dumps and texts of runs are files, texts no links and not compressed already,
    and their paths have no spaces. *)
Record compressible (t : tree) : Prop := Compressible {
  paths_once : NoDup (map fst t);
  names_once : forall p es, In (p, es) t -> NoDup (map fst es);
  joined_once : forall p n f p' n' f', files_at t p n f -> files_at t p' n' f' -> join p n = join p' n' -> p = p' /\ n = n';
  dumps_there : forall p n f, Run p -> Dump n -> files_at t p n f -> f <> Link false;
  texts_plain : forall p n f, Run p -> Text n -> files_at t p n f -> (exists b, f = Regular b) /\ py_in " " (join p n) = false /\ forall g, ~ files_at t p (n ++ ".gz") g }.
Section Whole.
  Variables (deflate : string -> string) (t : tree).
  Hypothesis C : compressible t.
  Let L1 := flat (selected to_remove t).
  Let L2 := flat (selected to_compress t).
  Let t1 := del (mem L1) t.
  Let t2 := zip deflate (mem L2) t1.
  Lemma first_loop : removing (fun _ _ => true) t L1 = (t1, None).
  Proof using C.
    apply removing_all; [apply flat_nodup; apply C|]. intros p n I. apply flat_in in I. destruct I as (R & S & f & F). unfold present.
    rewrite (lookup_in t (paths_once t C) (names_once t C) p n f F). apply remove_iff in S. pose proof (dumps_there t C p n f R S F) as A. destruct f as [b|[]]; [reflexivity|reflexivity|congruence].
  Qed.
  Lemma apart_1_2 : forall p n, mem L2 p n = true -> mem L1 p n = false.
  Proof using C.
    intros p n H. apply mem_iff, flat_in in H. destruct H as (_ & S & _). unfold to_compress in S. apply andb_true_iff in S. destruct S as [S _]. apply negb_true_iff in S.
    destruct (mem L1 p n) eqn:M; [|reflexivity]. apply mem_iff, flat_in in M. destruct M as (_ & M & _). congruence.
  Qed.
  Lemma second_loop : forall bound, compressing deflate bound t1 L2 = (t2, None).
  Proof using C.
    intro bound. rewrite <- (zip_none deflate t1) at 1. unfold t2. change L2 with ([] ++ L2)%list at 2.
    apply compressing_all.
    - intros p n f p' n' f' A B. apply files_del in A, B. apply (joined_once t C p n f p' n' f'); tauto.
    - unfold t1, del. rewrite map_map. cbn [fst]. apply (paths_once t C).
    - intros p es I. unfold t1, del in I. apply in_map_iff in I. destruct I as ((q & es') & E & I). cbn [fst snd] in E.
      assert (es = filter (fun e => negb (mem L1 q (fst e))) es') by congruence. subst es. pose proof (names_once t C q es' I) as N. clear - N.
      induction es' as [|[m g] r IH]; [constructor|]. cbn [map fst] in N. inversion N as [|? ? Na Nl]; subst. cbn [filter fst]. destruct (negb (mem L1 q m)); [|exact (IH Nl)].
      cbn. constructor; [|exact (IH Nl)]. intro J. apply Na. apply in_map_iff in J. destruct J as (x & X & J). apply filter_In in J. apply in_map_iff. exists x. tauto.
    - cbn. apply flat_nodup; apply C.
    - intros p n I. pose proof I as M. apply mem_iff, apart_1_2 in M. apply flat_in in I. destruct I as (R & S & f & F). apply compress_iff in S.
      destruct (texts_plain t C p n f R S F) as ((b & ->) & W & G). destruct (text_name n S) as (N & Z & Z'). repeat split.
      + exists b. apply files_del. auto.
      + unfold words. rewrite (words_plain _ "" W). cbn [append]. destruct (String.eqb_spec (join p n) ""); [exfalso; exact (join_nonempty p n N e)|reflexivity].
      + apply Z.
      + exact Z'.
      + intros g Q. apply files_del in Q. apply (G g). tauto.
  Qed.
  (** In each directory the dumps of runs are gone, the texts of runs are compressed under their names with .gz, and anything else is as it was. *)
  Definition folder_after (d d' : string * entries) : Prop := fst d' = fst d /\ forall n f, In (n, f) (snd d') <->
    (In (n, f) (snd d) /\ ~ (Run (fst d) /\ (Dump n \/ Text n))) \/
    (Run (fst d) /\ exists m b, Text m /\ n = m ++ ".gz" /\ In (m, Regular b) (snd d) /\ f = Regular (deflate b)).
  Lemma result_folder : forall d, In d t -> folder_after d (fst d, map (fun e => if mem L2 (fst d) (fst e) then zipped deflate e else e) (filter (fun e => negb (mem L1 (fst d) (fst e))) (snd d))).
  Proof using C.
    intros [p es] D. split; [reflexivity|]. intros n f. cbn [fst snd]. rewrite in_map_iff. split.
    - intros ((m & g) & E & I). apply filter_In in I. destruct I as [I K]. cbn [fst snd] in *. apply negb_true_iff in K. destruct (mem L2 p m) eqn:M.
      + right. apply mem_iff, flat_in in M. destruct M as (R & S & _). apply compress_iff in S. split; [exact R|].
        destruct (texts_plain t C p m g R S) as ((b & ->) & _); [exists es; auto|]. exists m, b. unfold zipped in E. cbn [fst snd] in E. repeat split; try tauto; try congruence.
        all: apply S.
      + left. assert (m = n) by congruence. assert (g = f) by congruence. subst. split; [exact I|]. intros (R & [Q|Q]).
        * assert (mem L1 p n = true); [|congruence]. apply mem_iff, flat_in. split; [exact R|]. split; [apply remove_iff, Q|]. exists f, es. auto.
        * assert (mem L2 p n = true); [|congruence]. apply mem_iff, flat_in. split; [exact R|]. split; [apply compress_iff, Q|]. exists f, es. auto.
    - intros [(I & N)|(R & m & b & S & -> & I & ->)].
      + exists (n, f). cbn [fst]. destruct (mem L2 p n) eqn:M.
        { exfalso. apply mem_iff, flat_in in M. destruct M as (R & S & _). apply N. split; [exact R|]. right. apply compress_iff, S. }
        split; [reflexivity|]. apply filter_In. split; [exact I|]. cbn [fst]. destruct (mem L1 p n) eqn:M'; [|reflexivity].
        exfalso. apply mem_iff, flat_in in M'. destruct M' as (R & S & _). apply N. split; [exact R|]. left. apply remove_iff, S.
      + assert (M : mem L2 p m = true) by (apply mem_iff, flat_in; split; [exact R|]; split; [apply compress_iff, S|]; exists (Regular b), es; auto).
        exists (m, Regular b). cbn [fst]. rewrite M. split; [reflexivity|]. apply filter_In. split; [exact I|]. cbn [fst]. rewrite (apart_1_2 _ _ M). reflexivity.
  Qed.
  Lemma gz_left : forall m, Text m -> to_remove (m ++ ".gz") = false /\ to_compress (m ++ ".gz") = false.
  Proof using.
    intros m (_ & a & O & H).
    assert (E : exists e, In e ["data"; "mod"; "txt"] /\ m = a ++ String "." e) by (destruct H as [H|[H|H]]; [exists "data"|exists "mod"|exists "txt"]; (split; [cbn; tauto|exact H])).
    destruct E as (e & I & E).
    assert (N : ~ only_dots m) by (subst m; clear - I; intro H; induction a as [|c a IH]; cbn in H; [destruct H as [_ H]; destruct I as [<-|[<-|[<-|[]]]]; destruct H; discriminate|apply IH, H]).
    assert (S : splitext (m ++ ".gz") = (m, ".gz")) by (apply splitext_of; [cbn; repeat split; discriminate|exact N]).
    assert (R : to_remove (m ++ ".gz") = false).
    { unfold to_remove. rewrite S. cbn [fst]. apply String.eqb_neq. intro Q. rewrite Q in E. assert (D : dotless "core") by (cbn; repeat split; discriminate). rewrite E in D. exact (dot_dotted _ _ D). }
    split; [exact R|]. unfold to_compress. rewrite R, S. reflexivity.
  Qed.
  Lemma nothing_left : forall sel, (sel = to_remove \/ sel = to_compress) -> selected sel t2 = [].
  Proof using C.
    intros sel W. destruct (selected sel t2) as [|[p ns] r] eqn:E; [reflexivity|]. exfalso.
    assert (N : NoDup (map fst t2)) by (unfold t2, t1, zip, del; rewrite !map_map; cbn [fst]; apply (paths_once t C)).
    assert (I : In (p, ns) (selected sel t2)) by (rewrite E; left; reflexivity). apply (selected_in sel t2 p ns N) in I. destruct I as (X & R & es & I & ->).
    destruct (filter sel (map fst es)) as [|n l] eqn:F; [congruence|]. assert (J : In n (filter sel (map fst es))) by (rewrite F; left; reflexivity).
    apply filter_In in J. destruct J as [J K]. apply in_map_iff in J. destruct J as ((n' & f) & Q & J). cbn in Q. subst n'.
    unfold t2, t1, zip, del in I. rewrite map_map in I. apply in_map_iff in I. destruct I as (d & Q & I). cbn [fst snd] in Q.
    pose proof (result_folder d I) as [_ H]. assert (fst d = p) by congruence.
    assert (es = map (fun e => if mem L2 (fst d) (fst e) then zipped deflate e else e) (filter (fun e => negb (mem L1 (fst d) (fst e))) (snd d))) by congruence. subst es. apply H in J.
    destruct J as [(_ & J)|(_ & m & b & S & -> & _)].
    - apply J. subst p. split; [exact R|]. destruct W as [-> | ->]; [left; apply remove_iff, K|right; apply compress_iff, K].
    - destruct (gz_left m S) as [A B]. destruct W as [-> | ->]; congruence.
  Qed.
  Theorem C168_compress : exists t', compress_dir (fun _ _ => true) deflate t = (t', Ok (total_bytes t, total_bytes t', [], [])) /\ Forall2 folder_after t t'.
  Proof using C.
    exists t2. split.
    - unfold compress_dir. cbn [get_size remove_files compress_files total]. fold L1 L2. rewrite first_loop, second_loop. cbn [get_size remove_files compress_files total].
      rewrite !nothing_left by tauto.
      assert (B : forall x, total_size x = total_bytes x) by (intro x; exact (proj1 (C167_counts x))). rewrite !B. reflexivity.
    - unfold t2, t1, zip, del. rewrite map_map. cbn [fst snd].
      assert (G : forall l, (forall d, In d l -> In d t) -> Forall2 folder_after l (map (fun d => (fst d, map (fun e => if mem L2 (fst d) (fst e) then zipped deflate e else e) (filter (fun e => negb (mem L1 (fst d) (fst e))) (snd d)))) l)).
      { induction l as [|d l IH]; intro S; constructor; [apply result_folder, S; left; reflexivity|apply IH; intros x X; apply S; right; exact X]. }
      apply G. auto.
  Qed.
End Whole.
(** Nothing but dumps is lost: each other file is still there, or its compression is, from which it can be restored. *)
Theorem C168_lossless : forall deflate inflate t, (forall b, inflate (deflate b) = b) -> compressible t -> exists t', fst (compress_dir (fun _ _ => true) deflate t) = t' /\
  forall p n b, files_at t p n (Regular b) -> ~ (Run p /\ Dump n) -> files_at t' p n (Regular b) \/ exists z, files_at t' p (n ++ ".gz") (Regular z) /\ inflate z = b.
Proof.
  intros deflate inflate t H C. destruct (C168_compress deflate t C) as (t' & E & F). exists t'. rewrite E. split; [reflexivity|].
  intros p n b (es & I & J) N. clear E C.
  assert (X : exists d', In d' t' /\ folder_after deflate (p, es) d').
  { induction F as [|x y l l' A B IH]; [destruct I|]. destruct I as [-> |I]; [exists y; split; [left; reflexivity|exact A]|]. destruct (IH I) as (d' & D1 & D2). exists d'. split; [right; exact D1|exact D2]. }
  destruct X as ((q & es') & D & Q & S). cbn [fst snd] in Q, S. subst q.
  destruct (py_in MARK p) eqn:M.
  - apply run_iff in M. destruct (to_compress n) eqn:T.
    + apply compress_iff in T. right. exists (deflate b). split; [|apply H]. exists es'. split; [exact D|]. apply S. right. split; [exact M|]. exists n, b. auto.
    + left. exists es'. split; [exact D|]. apply S. left. split; [exact J|]. intros (_ & [A|A]); [apply N; auto|]. apply compress_iff in A. congruence.
  - left. exists es'. split; [exact D|]. apply S. left. split; [exact J|]. intros (R & _). apply run_iff in R. congruence.
Qed.
Print Assumptions C168_compress.
Print Assumptions C168_lossless.

(** ** A grid with two runs; cases which are not compressible *)
Definition grid : tree :=
  [("grid", [("README.txt", Regular "read me")]);
   ("grid/m1_10_grid_index_0", [("inlist", Regular "abc"); ("core.123", Regular "dump"); ("tmp.txt.gz", Regular "z")]);
   ("grid/m1_10_grid_index_0/LOGS", [("history.data", Regular "1 2 3"); ("core", Regular "x"); (".data", Regular "y")]);
   ("grid/m1_12_grid_index_1", [("final.mod", Regular "model"); ("link", Link true)])].
Definition fake (b : string) : string := "gz:" ++ b.
Lemma grid_files : forall p n f, files_at grid p n f -> In (p, n) [("grid", "README.txt"); ("grid/m1_10_grid_index_0", "inlist"); ("grid/m1_10_grid_index_0", "core.123"); ("grid/m1_10_grid_index_0", "tmp.txt.gz");
  ("grid/m1_10_grid_index_0/LOGS", "history.data"); ("grid/m1_10_grid_index_0/LOGS", "core"); ("grid/m1_10_grid_index_0/LOGS", ".data"); ("grid/m1_12_grid_index_1", "final.mod"); ("grid/m1_12_grid_index_1", "link")].
Proof.
  intros p n f (es & I & J). cbn in I. repeat (destruct I as [I|I]; [assert (Ep := f_equal fst I); assert (Ee := f_equal snd I); cbn [fst snd] in Ep, Ee; subst p es; cbn in J;
    repeat (destruct J as [J|J]; [assert (Jn := f_equal fst J); cbn [fst] in Jn; subst n; cbn; tauto|]); destruct J|]). destruct I.
Qed.
Example C168_case : compressible grid /\ compress_dir (fun _ _ => true) fake grid =
  ([("grid", [("README.txt", Regular "read me")]);
    ("grid/m1_10_grid_index_0", [("inlist", Regular "abc"); ("tmp.txt.gz", Regular "z")]);
    ("grid/m1_10_grid_index_0/LOGS", [("history.data.gz", Regular "gz:1 2 3"); (".data", Regular "y")]);
    ("grid/m1_12_grid_index_1", [("final.mod.gz", Regular "gz:model"); ("link", Link true)])], Ok (27, 28, [], [])) /\ n_runs (get_size grid) = 2.
Proof.
  split; [|split; reflexivity].
  assert (S : forall p n f, Run p -> Text n -> files_at grid p n f -> (p, n) = ("grid/m1_10_grid_index_0/LOGS", "history.data") \/ (p, n) = ("grid/m1_12_grid_index_1", "final.mod")).
  { intros p n f R T F. apply run_iff in R. apply compress_iff in T. apply grid_files in F. cbn in F.
    repeat (destruct F as [F|F]; [assert (Ep := f_equal fst F); assert (En := f_equal snd F); cbn [fst snd] in Ep, En; subst p n; try discriminate; tauto|]). destruct F. }
  constructor.
  - cbn. repeat (constructor; [cbn; intros H; repeat (destruct H as [H|H]; [discriminate|]); destruct H|]). constructor.
  - intros p es I. cbn in I. repeat (destruct I as [I|I]; [assert (Ee := f_equal snd I); cbn [snd] in Ee; subst es; cbn;
      repeat (constructor; [cbn; intros H; repeat (destruct H as [H|H]; [discriminate|]); destruct H|]); constructor|]). destruct I.
  - intros p n f p' n' f' A B E. apply grid_files in A, B. cbn in A, B.
    repeat (destruct A as [A|A]; [assert (Ap := f_equal fst A); assert (An := f_equal snd A); cbn [fst snd] in Ap, An; subst p n;
      repeat (destruct B as [B|B]; [assert (Bp := f_equal fst B); assert (Bn := f_equal snd B); cbn [fst snd] in Bp, Bn; subst p' n'; cbn in E; first [discriminate E|split; reflexivity]|]); destruct B|]). destruct A.
  - intros p n f _ D F Q. subst f. destruct F as (es & I & J). cbn in I. repeat (destruct I as [I|I]; [assert (Ee := f_equal snd I); cbn [snd] in Ee; subst es; cbn in J;
      repeat (destruct J as [J|J]; [discriminate|]); destruct J|]). destruct I.
  - intros p n f R T F. destruct (S p n f R T F) as [E|E]; assert (Ep := f_equal fst E); assert (En := f_equal snd E); cbn [fst snd] in Ep, En; subst p n.
    + split; [|split; [reflexivity|intros g G; apply grid_files in G; cbn in G; repeat (destruct G as [G|G]; [discriminate|]); destruct G]].
      destruct F as (es & I & J). cbn in I. repeat (destruct I as [I|I]; [first [discriminate I|assert (Ee := f_equal snd I); cbn [snd] in Ee; subst es; cbn in J;
        repeat (destruct J as [J|J]; [first [discriminate J|assert (Jf := f_equal snd J); cbn [snd] in Jf; eauto]|]); destruct J]|]). destruct I.
    + split; [|split; [reflexivity|intros g G; apply grid_files in G; cbn in G; repeat (destruct G as [G|G]; [discriminate|]); destruct G]].
      destruct F as (es & I & J). cbn in I. repeat (destruct I as [I|I]; [first [discriminate I|assert (Ee := f_equal snd I); cbn [snd] in Ee; subst es; cbn in J;
        repeat (destruct J as [J|J]; [first [discriminate J|assert (Jf := f_equal snd J); cbn [snd] in Jf; eauto]|]); destruct J]|]). destruct I.
Qed.
(** Files below a path with a space are not compressed (the shell parts the command), which is noticed; a file core.data is taken for a dump; a link to a file which is
    no longer there makes the compression fail, for a name which is not bound; a file of which there is a compression already is left. *)
Theorem C168_space_refuted : let t := [("my grid/a_grid_index_0", [("history.data", Regular "1")])] in
  compress_dir (fun _ _ => true) fake t = (t, Ok (1, 1, [], [("my grid/a_grid_index_0", ["history.data"])])).
Proof. reflexivity. Qed.
Theorem C168_core_refuted : compress_dir (fun _ _ => true) fake [("a_grid_index_0", [("core.data", Regular "masses of cores")])] = ([("a_grid_index_0", [])], Ok (15, 0, [], [])).
Proof. reflexivity. Qed.
Theorem C168_link_refuted : let t := [("a_grid_index_0", [("history.data", Link false); ("final.mod", Regular "m")])] in
  compress_dir (fun _ _ => true) fake t = (t, Raise (OtherError "UnboundLocalError")).
Proof. reflexivity. Qed.
Theorem C168_again_refuted : let t := [("a_grid_index_0", [("history.data", Regular "new"); ("history.data.gz", Regular "gz:old")])] in
  compress_dir (fun _ _ => true) fake t = (t, Ok (9, 9, [], [("a_grid_index_0", ["history.data"])])).
Proof. reflexivity. Qed.

(** ** C169: sizes for people *)
Open Scope Q_scope.
Lemma choose_spec : forall us v b th s, 0 < v -> 0 < b -> 0 < th -> 0 <= s ->
  match choose us v b th s with
  | (q, Some u) => exists i, nth_error us i = Some u /\ s == q * (v * Qpower b (Z.of_nat i)) /\ 0 <= q /\ q < th /\ ((0 < i)%nat -> th <= q * b)
  | (q, None) => q = s /\ (us <> [] -> th * (v * Qpower b (Z.of_nat (List.length us) - 1)) <= s)
  end.
Proof.
  induction us as [|u us IH]; intros v b th s Hv Hb Ht Hs; cbn [choose]; [split; [reflexivity|congruence]|].
  destruct (Qle_bool (v * th) s) eqn:E.
  - apply Qle_bool_iff in E. assert (Hvb : 0 < v * b) by nra. specialize (IH (v * b) b th s Hvb Hb Ht Hs). destruct (choose us (v * b) b th s) as [q [u'|]] eqn:Ch.
    + destruct IH as (i & N & V & P & L & B). exists (S i). split; [exact N|].
      assert (X : v * b * Qpower b (Z.of_nat i) == v * Qpower b (Z.of_nat (S i))).
      { rewrite Nat2Z.inj_succ. unfold Z.succ. rewrite Qpower_plus by lra. change (Qpower b 1) with b. ring. }
      rewrite <- X. repeat split; [exact V|exact P|exact L|]. intros _. destruct i as [|i].
      * cbn [Z.of_nat Qpower] in V. assert (Y : v * th <= v * (q * b)) by (apply Qle_trans with s; [exact E|]; rewrite V; ring_simplify; apply Qle_refl). nra.
      * apply B. lia.
    + destruct IH as [-> IH]. split; [reflexivity|]. intros _. destruct us as [|u' us].
      * cbn [List.length]. change (Z.of_nat 1 - 1)%Z with 0%Z. cbn [Qpower]. lra.
      * assert (N : u' :: us <> []) by discriminate. specialize (IH N). cbn [List.length] in *. set (k := Z.of_nat (S (List.length us))) in *.
        replace (Z.of_nat (S (S (List.length us))) - 1)%Z with (1 + (k - 1))%Z by (unfold k; lia). rewrite Qpower_plus by lra. change (Qpower b 1) with b.
        apply Qle_trans with (th * (v * b * Qpower b (k - 1))); [|exact IH]. apply Qle_lteq. right. ring.
  - assert (E' : ~ v * th <= s) by (intro Q; apply Qle_bool_iff in Q; congruence). exists 0%nat. split; [reflexivity|]. cbn [Z.of_nat Qpower].
    assert (N : ~ v == 0) by lra. assert (D : s == s / v * v) by (field; exact N). assert (P : 0 <= s / v).
    { apply Qle_shift_div_l; [exact Hv|lra]. }
    repeat split; [rewrite Qmult_1_r; exact D|exact P| |lia]. apply Qlt_shift_div_r; [exact Hv|]. rewrite Qmult_comm. lra.
Qed.
Theorem C169_textsize : forall size base th neg q u, textsize size base th = Ok (neg, q, u) ->
  (base = 1000%Z \/ base = 1024%Z) /\ 0 < th /\ th <= inject_Z base /\ (neg = true <-> size < 0) /\
  match u with
  | Some u => exists i, nth_error ["b"; "K"; "M"; "G"; "T"; "P"; "E"; "Z"; "Y"] i = Some u /\
      size == (if neg then -1 else 1) * q * Qpower (inject_Z base) (Z.of_nat i) /\ 0 <= q /\ q < th /\ ((0 < i)%nat -> th <= q * inject_Z base)
  | None => size == (if neg then -1 else 1) * q /\ th * Qpower (inject_Z base) 8 <= q
  end.
Proof.
  intros size base th neg q u H. unfold textsize in H. destruct (Z.eqb base 1000 || Z.eqb base 1024)%bool eqn:B; [|discriminate]. cbn [negb] in H.
  destruct (Qle_bool th 0) eqn:T; [discriminate|]. destruct (Qle_bool th (inject_Z base)) eqn:T'; [|discriminate]. cbn [negb] in H.
  assert (T0 : 0 < th) by (apply Qnot_le_lt; intro Q; apply Qle_bool_iff in Q; congruence). apply Qle_bool_iff in T'.
  assert (B' : base = 1000%Z \/ base = 1024%Z) by (apply orb_true_iff in B; rewrite !Z.eqb_eq in B; exact B).
  assert (Bp : 0 < inject_Z base) by (apply Qlt_le_trans with th; assumption).
  set (ng := negb (Qle_bool 0 size)) in *. assert (G : ng = true <-> size < 0).
  { unfold ng. rewrite negb_true_iff. split; intro Q.
    - apply Qnot_le_lt. intro X. apply Qle_bool_iff in X. congruence.
    - apply not_true_iff_false. intro X. apply Qle_bool_iff in X. lra. }
  assert (P : 0 <= (if ng then - size else size)).
  { destruct ng; [assert (size < 0) by (apply G; reflexivity); lra|]. apply Qnot_lt_le. intro X. apply G in X. discriminate. }
  pose proof (choose_spec UNITS 1 (inject_Z base) th _ eq_refl Bp T0 P) as S. destruct (choose UNITS 1 (inject_Z base) th (if ng then - size else size)) as [q' u'].
  assert (E : ng = neg /\ q' = q /\ u' = u) by (repeat split; congruence). destruct E as (-> & -> & ->).
  split; [exact B'|]. split; [exact T0|]. split; [exact T'|]. split; [exact G|]. destruct u as [u|].
  - destruct S as (i & N & V & Q1 & Q2 & Q3). exists i. split; [exact N|]. split; [|split; [exact Q1|split; [exact Q2|exact Q3]]].
    set (w := Qpower (inject_Z base) (Z.of_nat i)) in *. clearbody w. destruct neg; [assert (X : size == - (q * (1 * w))) by lra; rewrite X; ring|rewrite V; ring].
  - destruct S as [V W]. assert (N : UNITS <> []) by discriminate. specialize (W N). change (Z.of_nat (List.length UNITS) - 1)%Z with 8%Z in W. rewrite <- V in W. split.
    + rewrite V. destruct neg; ring.
    + rewrite Qmult_1_l in W. exact W.
Qed.
(** Bad options are refused; any others work. *)
Theorem C169_refused : forall size base th, (exists x, textsize size base th = Ok x) <-> (base = 1000%Z \/ base = 1024%Z) /\ 0 < th /\ th <= inject_Z base.
Proof.
  intros size base th. split.
  - intros (((neg & q) & u) & H). apply C169_textsize in H. tauto.
  - intros (B & T & T'). unfold textsize. assert (X : (Z.eqb base 1000 || Z.eqb base 1024)%bool = true) by (apply orb_true_iff; rewrite !Z.eqb_eq; exact B). rewrite X. cbn [negb].
    destruct (Qle_bool th 0) eqn:E; [apply Qle_bool_iff in E; lra|]. assert (Y : Qle_bool th (inject_Z base) = true) by (apply Qle_bool_iff, T'). rewrite Y. cbn [negb].
    destruct (choose _ _ _ _ _) as [q u]. eexists. reflexivity.
Qed.
Example C169_case : textsize (-3000000) 1024 1000 = Ok (true, 3000000 # 1048576, Some "M") /\ textsize 1000 1024 1000 = Ok (false, 1000 # 1024, Some "K") /\ textsize 12 999 1 = Raise ValueError.
Proof. repeat split. Qed.
(** With the default options a quantity can round up to 1000, which the format for three digits writes as "1e+03". *)
Theorem C169_rounding_refuted : exists q, textsize 1023999 1024 1000 = Ok (false, q, Some "K") /\ 1999 # 2 <= q /\ q < 1000.
Proof. eexists. split; [reflexivity|]. split; [discriminate|reflexivity]. Qed.
Print Assumptions C169_textsize.
