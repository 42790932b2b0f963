(** The initial-final interpolator: runs used, scaling, cross validation, filling (C139, C140, C143, C144) *)
From Coq Require Import String List Bool Reals Ascii Arith Lra Lia Permutation.
From Verif Require Import PyBase ScalerModel ScalerProps IFModel.
Import ListNotations.
Open Scope string_scope.
Open Scope R_scope.
Open Scope list_scope.

(** ** C139: which runs are used *)
Definition not_interpolated : list string := ["not_converged"; "ignored_no_BH"; "ignored_no_RLO"; "initial_MT"].
Definition equal_masses (in_q : bool) (r : grun) : Prop := in_q = true /\ nth 1 (g_in r) None = Some 1.
Definition inputs_known (r : grun) : Prop := Forall (fun x => x <> None) (g_in r).
Lemma inb_iff x l : IFModel.inb x l = true <-> In x l.
Proof. unfold IFModel.inb. rewrite existsb_exists. split; [intros (y & I & E); apply String.eqb_eq in E; subst; exact I|intro I; exists x; split; [exact I|apply String.eqb_refl]]. Qed.
Lemma inb_no x l : IFModel.inb x l = false <-> ~ In x l.
Proof. rewrite <- inb_iff. destruct (IFModel.inb x l); split; intro H; congruence. Qed.
Lemma is_one_iff x : is_one x = true <-> x = Some 1.
Proof. unfold is_one. destruct x as [a|]; [|split; discriminate]. destruct (Req_EM_T a 1); [subst; split; reflexivity|split; [discriminate|congruence]]. Qed.
Lemma known_iff r : existsb is_nan (g_in r) = false <-> inputs_known r.
Proof.
  unfold inputs_known. induction (g_in r) as [|x l IH]; cbn; [split; auto|]. rewrite orb_false_iff, IH. split; [intros [A B]; constructor; [intros ->; discriminate A|exact B]|intro F; inversion F as [|? ? A B]; subst; split; [destruct x; [reflexivity|congruence]|exact B]].
Qed.
Lemma equal_iff in_q r : in_q && is_one (nth 1 (g_in r) None) = true <-> equal_masses in_q r.
Proof. unfold equal_masses. rewrite andb_true_iff, is_one_iff. reflexivity. Qed.
Theorem C139_used : forall in_q grid r, In r (used in_q grid) <-> In r grid /\ ~ In (g_ic r) not_interpolated /\ ~ equal_masses in_q r.
Proof.
  intros in_q grid r. unfold used. rewrite filter_In, Z.ltb_lt, <- equal_iff. unfold valid. destruct (in_q && is_one (nth 1 (g_in r) None)); [split; [intros [_ C]; lia|intros (_ & _ & C); exfalso; apply C; reflexivity]|].
  change not_interpolated with ignored_classes. destruct (IFModel.inb (g_ic r) ignored_classes) eqn:I.
  - apply inb_iff in I. split; [|intros (_ & C & _); contradiction]. intros [_ C]. exfalso. destruct (existsb is_nan (g_in r)); [lia|]. destruct (IFModel.inb (g_ic r) discarded_flags); lia.
  - apply inb_no in I. split; [intros [A _]; split; [exact A|split; [exact I|discriminate]]|intros (A & _); split; [exact A|lia]].
Qed.
Print Assumptions C139_used.
Theorem C139_kept : forall in_q grid r, In r (kept in_q grid) <-> In r grid /\ ~ equal_masses in_q r /\ (~ In (g_ic r) not_interpolated \/ (In (g_ic r) ["ignored_no_BH"; "initial_MT"] /\ inputs_known r)).
Proof.
  intros in_q grid r. unfold kept. rewrite filter_In, Z.leb_le, <- equal_iff. unfold valid. destruct (in_q && is_one (nth 1 (g_in r) None)); [split; [intros [_ C]; lia|intros (_ & C & _); exfalso; apply C; reflexivity]|].
  change not_interpolated with ignored_classes. destruct (IFModel.inb (g_ic r) ignored_classes) eqn:I.
  - apply inb_iff in I. rewrite <- known_iff. destruct (existsb is_nan (g_in r)); [split; [intros [_ C]; lia|intros (_ & _ & [C|[_ C]]); [contradiction|discriminate]]|]. destruct (IFModel.inb (g_ic r) discarded_flags) eqn:D.
    + apply inb_iff in D. split; [intros [_ C]; lia|]. intros (_ & _ & [C|[C _]]); [contradiction|]. exfalso. unfold discarded_flags in D. cbn in C, D. destruct C as [C|[C|[]]]; rewrite <- C in D; destruct D as [D|[D|[D|[]]]]; discriminate D.
    + apply inb_no in D. split; [|intros (A & _); split; [exact A|lia]]. intros [A _]. split; [exact A|]. split; [discriminate|]. right. split; [|reflexivity]. unfold ignored_classes, discarded_flags in *. cbn in I, D |- *. destruct I as [I|[I|[I|[I|[]]]]]; auto; exfalso; apply D; auto.
  - apply inb_no in I. split; [intros [A _]; split; [exact A|]; split; [discriminate|left; exact I]|intros (A & _); split; [exact A|lia]].
Qed.
Print Assumptions C139_kept.
Example C139_case : let a := GRun [Some 10; Some (1 / 2); Some 3] [Some 1] "no_MT" "no_MT" in let b := GRun [Some 10; Some 1; Some 3] [Some 1] "no_MT" "no_MT" in let c := GRun [Some 10; Some (1 / 2); Some 2] [None] "initial_MT" "initial_MT" in
  used true [a; b; c] = [a] /\ kept true [a; b; c] = [a; c].
Proof. cbv zeta. unfold used, kept, valid. cbn. destruct (Req_EM_T (1 / 2) 1) as [C|C]; [exfalso; lra|]. destruct (Req_EM_T 1 1) as [D|D]; [|contradiction]. split; reflexivity. Qed.
(** Runs with missing inputs are not discarded, though they are said to be, nor are those without a history. *)
Theorem C139_missing_refuted : exists r, ~ inputs_known r /\ forall before after, In r (used true (before ++ r :: after)) /\ In r (used false (before ++ r :: after)).
Proof.
  exists (GRun [Some 10; None; Some 3] [Some 1] "no_MT" "no_MT"). split; [intro F; inversion F as [|? ? _ F2]; inversion F2 as [|? ? C _]; congruence|]. intros b a. split; apply C139_used; (split; [apply in_or_app; right; left; reflexivity|]); (split; [cbn; intros [C|[C|[C|[C|[]]]]]; discriminate C|]); intros [_ C]; discriminate C.
Qed.
Print Assumptions C139_missing_refuted.
Theorem C139_history_refuted : forall r before after, g_ic r = "ignored_no_binary_history" -> In r (used false (before ++ r :: after)).
Proof. intros r b a E. apply C139_used. split; [apply in_or_app; right; left; reflexivity|]. rewrite E. split; [cbn; intros [C|[C|[C|[C|[]]]]]; discriminate C|]. intros [C _]. discriminate C. Qed.
Print Assumptions C139_history_refuted.

(** ** C140: scaling by class *)
Lemma mapm_iff {A B} (f : A -> result B) l bs : mapm f l = Ok bs <-> Forall2 (fun a b => f a = Ok b) l bs.
Proof.
  revert bs. induction l as [|a l IH]; intro bs; cbn [mapm]; [split; [intro H; assert (bs = []) by congruence; subst; constructor|intro F; inversion F; reflexivity]|]. destruct (f a) as [b|e] eqn:E; cbn [rbind].
  - destruct (mapm f l) as [bs'|e] eqn:M; cbn [rbind].
    + split; [intro H; assert (bs = b :: bs') by congruence; subst; constructor; [exact E|apply IH; reflexivity]|]. intro F. inversion F as [|? b' ? bs2 H1 H2]; subst. apply IH in H2. congruence.
    + split; [discriminate|]. intro F. inversion F as [|? b' ? bs2 H1 H2]; subst. apply IH in H2. congruence.
  - split; [discriminate|]. intro F. inversion F as [|? b' ? bs2 H1 H2]; subst. congruence.
Qed.
Lemma forall2_nth {A B} (P : A -> B -> Prop) l l' : Forall2 P l l' -> length l = length l' /\ forall i a b, (i < length l)%nat -> P (nth i l a) (nth i l' b).
Proof.
  induction 1 as [|x y l l' H F [IL IH]]; cbn; [split; [reflexivity|intros; lia]|]. split; [congruence|]. intros [|i] a b I; [exact H|]. apply IH. lia.
Qed.
Lemma forall2_of_nth {A B} (P : A -> B -> Prop) a b l l' : length l = length l' -> (forall i, (i < length l)%nat -> P (nth i l a) (nth i l' b)) -> Forall2 P l l'.
Proof.
  revert l'. induction l as [|x l IH]; intros [|y l'] L H; cbn in L; try lia; constructor; [apply (H 0%nat); cbn; lia|]. apply IH; [lia|]. intros i I. apply (H (S i)). cbn. lia.
Qed.

(** The outputs (or inputs) of the runs of a class *)
Definition runs_of (c : string) (l : list grun) : list grun := filter (fun r => String.eqb (g_c r) c) l.
Lemma of_class_aligned c (f : grun -> row) l : of_class c (map g_c l) (map f l) = map f (runs_of c l).
Proof. unfold of_class, runs_of. induction l as [|r l IH]; [reflexivity|]. cbn. destruct (String.eqb (g_c r) c); cbn; [f_equal|]; exact IH. Qed.
Lemma lookup_built per n X ic ms m c : mapm (fun p : string * list string => rbind (matrix_scaler (snd p) n (of_class (fst p) ic X)) (fun m => Ok (Some (fst p), m))) per = Ok ms ->
  NoDup (map fst per) -> forall norms, In (c, norms) per -> exists s, lookup (ms ++ [(None, m)]) (Some c) = Some s /\ matrix_scaler norms n (of_class c ic X) = Ok s.
Proof.
  intros M ND norms I. apply mapm_iff in M. revert I ND. induction M as [|[c0 n0] [k s0] per ms H F IH]; intros I ND; [contradiction|]. cbn [fst snd] in H. destruct (matrix_scaler n0 n (of_class c0 ic X)) as [s1|] eqn:E; cbn [rbind] in H; [|discriminate]. assert (k = Some c0 /\ s0 = s1) as [-> ->] by (split; congruence). inversion ND as [|? ? N1 N2]; subst. unfold lookup. cbn [app find fst okey_eqb]. destruct I as [I|I].
  - assert (c0 = c /\ n0 = norms) as [-> ->] by (split; congruence). rewrite String.eqb_refl. exists s1. split; [reflexivity|exact E].
  - destruct (String.eqb c0 c) eqn:Q; [|exact (IH I N2)]. apply String.eqb_eq in Q. subst c0. exfalso. apply N1. apply in_map_iff. exists (c, norms). split; [reflexivity|exact I].
Qed.
Lemma lookup_none per n X ic ms m : mapm (fun p : string * list string => rbind (matrix_scaler (snd p) n (of_class (fst p) ic X)) (fun m => Ok (Some (fst p), m))) per = Ok ms -> lookup (ms ++ [(None, m)]) None = Some m.
Proof.
  intro M. apply mapm_iff in M. induction M as [|[c0 n0] [k s0] per ms H F IH]; [reflexivity|]. cbn [fst snd] in H. destruct (matrix_scaler n0 n (of_class c0 ic X)) as [s1|] eqn:E; cbn [rbind] in H; [|discriminate]. assert (k = Some c0) by congruence. subst k. exact IH.
Qed.
(** Outputs of a class are scaled as its own runs suggest. *)
Theorem C140_outputs : forall per all n u sc c norms, build_scaler (ByClass per all) n (map g_out u) (map g_c u) = Ok sc -> NoDup (map fst per) -> In (c, norms) per ->
  exists s, lookup sc (Some c) = Some s /\ matrix_scaler norms n (map g_out (runs_of c u)) = Ok s.
Proof.
  intros per all n u sc c norms B ND I. cbn [build_scaler] in B. destruct (mapm _ per) as [ms|] eqn:M; cbn [rbind] in B; [|discriminate]. destruct (matrix_scaler all n (map g_out u)) as [m|]; cbn [rbind] in B; [|discriminate]. assert (sc = ms ++ [(None, m)]) by congruence. subst sc. rewrite <- of_class_aligned. exact (lookup_built per n _ _ ms m c M ND norms I).
Qed.
Print Assumptions C140_outputs.
(** Inputs too, if no run is used for classification alone. *)
Theorem C140_inputs : forall in_q grid per all n sc c norms, kept in_q grid = used in_q grid -> build_scaler (ByClass per all) n (map g_in (kept in_q grid)) (map g_c (used in_q grid)) = Ok sc -> NoDup (map fst per) -> In (c, norms) per ->
  exists s, lookup sc (Some c) = Some s /\ matrix_scaler norms n (map g_in (runs_of c (used in_q grid))) = Ok s.
Proof.
  intros in_q grid per all n sc c norms K B ND I. rewrite K in B. cbn [build_scaler] in B. destruct (mapm _ per) as [ms|] eqn:M; cbn [rbind] in B; [|discriminate]. destruct (matrix_scaler all n _) as [m|]; cbn [rbind] in B; [|discriminate]. assert (sc = ms ++ [(None, m)]) by congruence. subst sc. rewrite <- of_class_aligned. exact (lookup_built per n _ _ ms m c M ND norms I).
Qed.
Print Assumptions C140_inputs.
(** Otherwise the inputs are shifted against the classes: here the scaling for no_MT is that of the runs with initial mass transfer, and its runs are far outside [-1, 1]. *)
Definition shifted : list grun := [GRun [Some 1] [Some 0] "initial_MT" "initial_MT"; GRun [Some 2] [Some 0] "initial_MT" "initial_MT"; GRun [Some 10] [Some 0] "no_MT" "no_MT"; GRun [Some 20] [Some 1] "no_MT" "no_MT"].
Lemma fit1_min_max a b : a < b -> exists s, fit1 "min_max" [Some a; Some b] = Ok s /\ forall x, transform s [Some x] = Ok [Some ((x - a) / (b - a) * 2 - 1)].
Proof.
  intro L. unfold fit1. cbn. unfold fit_range. destruct (Rlt_dec (-1) 1) as [_|C]; [|exfalso; lra]. cbn. rewrite Rmin_left, Rmax_right by lra. eexists. split; [reflexivity|]. intro x. unfold transform. cbn. unfold to_range. cbn. unfold fdiv. destruct (Req_EM_T (b - a) 0) as [C|_]; [exfalso; lra|]. cbn. do 3 f_equal. field. lra.
Qed.
Theorem C140_shift_refuted : map g_in (used false shifted) = [[Some 10]; [Some 20]] /\ exists sc, build_scaler (ByClass [("no_MT", ["min_max"])] ["min_max"]) 1 (map g_in (kept false shifted)) (map g_c (used false shifted)) = Ok sc /\
  normalize sc (Some "no_MT") [Some 10] = Ok [Some 17] /\ normalize sc (Some "no_MT") [Some 20] = Ok [Some 37].
Proof.
  split; [reflexivity|]. change (map g_in (kept false shifted)) with ([[Some 1]; [Some 2]; [Some 10]; [Some 20]] : list row). change (map g_c (used false shifted)) with ["no_MT"; "no_MT"].
  destruct (fit1_min_max 1 2 ltac:(lra)) as (s & S1 & S2). unfold build_scaler. cbn [mapm fst snd]. unfold matrix_scaler. cbn -[fit1]. rewrite S1. cbn -[fit1].
  assert (A : exists s', fit1 "min_max" [Some 1; Some 2; Some 10; Some 20] = Ok s') by (unfold fit1; cbn; unfold fit_range; destruct (Rlt_dec (-1) 1) as [_|C]; [eexists; reflexivity|exfalso; lra]). destruct A as (s' & ->). cbn. eexists. split; [reflexivity|]. unfold normalize, apply_scaler. cbn. unfold scale_row. cbn. unfold one. rewrite !S2. cbn. split; do 3 f_equal; lra.
Qed.
Print Assumptions C140_shift_refuted.
(** Scalings as documented, lists of strings, are never accepted. *)
Theorem C140_documented_refuted : forall l n X ic, (0 < n)%nat -> exists e, build_scaler (Documented l) n X ic = Raise e.
Proof.
  intros l n X ic P. destruct l as [|a [|b l]]; cbn [build_scaler]; [eexists; reflexivity|eexists; reflexivity|]. destruct (String.eqb a b); [|eexists; reflexivity]. unfold matrix_scaler. destruct (Nat.eqb (length (chars a)) n) eqn:L; cbn [negb rbind]; [|eexists; reflexivity]. apply Nat.eqb_eq in L. destruct n as [|n]; [lia|]. destruct a as [|ch a]; [discriminate L|].
  cbn [chars list_ascii_of_string map seq combine mapm fst snd]. assert (F : exists e, fit1 (String ch "") (column 0 X) = Raise e).
  { unfold fit1, fit. set (m := String ch ""). assert (N : forall x y s, String.eqb m (String x (String y s)) = false) by (intros x y s; apply String.eqb_neq; discriminate). rewrite !N. eexists. reflexivity. }
  destruct F as (e & F). rewrite F. eexists. reflexivity.
Qed.
Print Assumptions C140_documented_refuted.
(** Per class, all inputs get the same scaling, whatever their distributions. *)
Theorem C140_alike_refuted : forall prefers grid n c, exists m, in_scale_one prefers grid n (Some c) = repeat m n.
Proof. intros prefers grid n c. unfold in_scale_one. eexists. induction (seq 0 n) as [|i l IH] eqn:E in n |- *; [destruct n; [reflexivity|discriminate]|]. destruct n as [|n]; [discriminate|]. cbn [map repeat]. f_equal. rewrite <- (seq_length n 1) at 1. cbn in E. injection E as _ E. rewrite <- E. clear. induction (seq 1 n) as [|x l IH]; [reflexivity|]. cbn. f_equal. exact IH. Qed.
Print Assumptions C140_alike_refuted.
(** Runs of a class without a scaling are left as they are. *)
Theorem C140_unknown : forall per all n X ic sc c x, build_scaler (ByClass per all) n X ic = Ok sc -> ~ In c (map fst per) -> c <> "None" -> normalize sc (Some c) x = Ok x /\ denormalize sc (Some c) x = Ok x.
Proof.
  intros per all n X ic sc c x B NI NN. cbn [build_scaler] in B. destruct (mapm _ per) as [ms|] eqn:M; cbn [rbind] in B; [|discriminate]. destruct (matrix_scaler all n X) as [m|]; cbn [rbind] in B; [|discriminate]. assert (sc = ms ++ [(None, m)]) by congruence. subst sc.
  assert (L : lookup (ms ++ [(None, m)]) (Some c) = None).
  { apply mapm_iff in M. clear B. induction M as [|[c0 n0] [k s0] per ms H F IH]; [reflexivity|]. cbn [fst snd] in H. destruct (matrix_scaler n0 n (of_class c0 ic X)) as [s1|] eqn:E; cbn [rbind] in H; [|discriminate]. assert (k = Some c0) by congruence. subst k. unfold lookup. cbn [app find fst okey_eqb]. destruct (String.eqb c0 c) eqn:Q; [apply String.eqb_eq in Q; exfalso; apply NI; left; exact Q|]. apply IH. intro C. apply NI. right. exact C. }
  unfold normalize, denormalize, apply_scaler, class_key. apply String.eqb_neq in NN. rewrite NN, L. split; reflexivity.
Qed.
Print Assumptions C140_unknown.

(** ** C143: cross validation *)
Theorem C143_split : forall nt perm N, (forall l, Permutation (perm l) l) -> Permutation (fst (xval nt perm N) ++ snd (xval nt perm N)) (seq 0 N) /\ ((nt N <= N)%nat -> length (fst (xval nt perm N)) = nt N).
Proof. intros nt perm N P. unfold xval. cbn [fst snd]. rewrite firstn_skipn. split; [apply P|]. intro L. rewrite firstn_length, (Permutation_length (P _)), seq_length. lia. Qed.
Print Assumptions C143_split.
Lemma with_label_in labels l i : In i (with_label labels l) <-> nth_error labels i = Some l.
Proof.
  unfold with_label. rewrite in_map_iff. assert (G : forall k i, (exists x, fst x = i /\ In x (filter (fun p => String.eqb (snd p) l) (combine (seq k (length labels)) labels))) <-> (k <= i)%nat /\ nth_error labels (i - k) = Some l).
  { clear i. induction labels as [|a labels IH]; intros k i; cbn [length seq combine filter].
    - split; [intros (x & _ & [])|]. intros [_ C]. destruct (i - k)%nat; discriminate C.
    - cbn [snd]. split.
      + intros (x & E & I). assert (H : x = (k, a) /\ a = l \/ In x (filter (fun p => String.eqb (snd p) l) (combine (seq (S k) (length labels)) labels))) by (destruct (String.eqb a l) eqn:Q; [apply String.eqb_eq in Q; destruct I as [I|I]; [left; auto|right; exact I]|right; exact I]). destruct H as [[-> ->]|H]; [cbn in E; subst i; split; [lia|]; rewrite Nat.sub_diag; reflexivity|].
        destruct (proj1 (IH (S k) i) (ex_intro _ x (conj E H))) as [L N]. split; [lia|]. replace (i - k)%nat with (S (i - S k)) by lia. exact N.
      + intros [L N]. destruct (Nat.eq_dec i k) as [->|NE].
        * rewrite Nat.sub_diag in N. cbn in N. assert (a = l) by congruence. subst a. rewrite String.eqb_refl. exists (k, l). split; [reflexivity|left; reflexivity].
        * replace (i - k)%nat with (S (i - S k)) in N by lia. cbn in N. assert (L' : (S k <= i)%nat) by lia. destruct (proj2 (IH (S k) i) (conj L' N)) as (x & E & I). exists x. split; [exact E|]. destruct (String.eqb a l); [right|]; exact I. }
  rewrite (G 0%nat i), Nat.sub_0_r. split; [intros [_ H]; exact H|intro H; split; [lia|exact H]].
Qed.
Lemma nodup_map_filter {B} (l : list B) (g : nat * B -> bool) : forall k, NoDup (map fst (filter g (combine (seq k (length l)) l))).
Proof.
  induction l as [|b l IH]; intro k; cbn [length seq combine filter]; [constructor|]. assert (N : forall x, In x (map fst (filter g (combine (seq (S k) (length l)) l))) -> (k < x)%nat). { intros x I. apply in_map_iff in I as ([x' b'] & <- & I). apply filter_In in I as [I _]. apply in_combine_l in I. apply in_seq in I. cbn. lia. }
  destruct (g (k, b)); [cbn; constructor; [intro C; specialize (N k C); lia|apply IH]|apply IH].
Qed.
Lemma nodup_concat {A B} (f : A -> list B) l : NoDup l -> (forall a, In a l -> NoDup (f a)) -> (forall a b x, In a l -> In b l -> In x (f a) -> In x (f b) -> a = b) -> NoDup (concat (map f l)).
Proof.
  induction l as [|a l IH]; intros ND H D; cbn; [constructor|]. inversion ND as [|? ? N1 N2]; subst.
  assert (G : NoDup (concat (map f l))) by (apply IH; [exact N2|intros b I; apply H; right; exact I|intros b c x I1 I2; apply D; right; assumption]).
  assert (DD : forall x, In x (f a) -> ~ In x (concat (map f l))). { intros x I1 I2. apply in_concat in I2 as (w & W & I2). apply in_map_iff in W as (b & <- & IB). apply N1. rewrite (D a b x (or_introl eq_refl) (or_intror IB) I1 I2). exact IB. }
  specialize (H a (or_introl eq_refl)). revert H DD. induction (f a) as [|y w IHw]; intros H DD; [exact G|]. inversion H as [|? ? H1 H2]; subst. cbn. constructor; [intro C; apply in_app_or in C as [C|C]; [contradiction|exact (DD y (or_introl eq_refl) C)]|]. apply IHw; [exact H2|]. intros x I. apply DD. right. exact I.
Qed.
Lemma split_perm (l : list string) (f : string -> list nat) (g : nat -> nat) : Permutation (concat (map fst (map (fun x => (firstn (g (length (f x))) (f x), skipn (g (length (f x))) (f x))) l)) ++ concat (map snd (map (fun x => (firstn (g (length (f x))) (f x), skipn (g (length (f x))) (f x))) l))) (concat (map f l)).
Proof.
  induction l as [|a l IH]; [constructor|]. cbn [map concat fst snd]. transitivity ((firstn (g (length (f a))) (f a) ++ skipn (g (length (f a))) (f a)) ++ concat (map f l)); [|rewrite firstn_skipn; reflexivity]. rewrite <- !app_assoc. apply Permutation_app_head. rewrite <- IH, !app_assoc. apply Permutation_app_tail. apply Permutation_app_comm.
Qed.
Theorem C143_stratified : forall nt perm perm' labels uniq, (forall l, Permutation (perm l) l) -> (forall l, Permutation (perm' l) l) -> NoDup uniq -> (forall x, In x uniq <-> In x labels) ->
  let '(train, test) := xval_labels nt perm perm' labels uniq in
  Permutation (train ++ test) (seq 0 (length labels)) /\
  forall l, In l labels -> exists early late, early ++ late = with_label labels l /\ length early = Nat.min (nt (length (with_label labels l))) (length (with_label labels l)) /\ (forall i, In i early -> In i train) /\ (forall i, In i late -> In i test).
Proof.
  intros nt perm perm' labels uniq P P' ND U. unfold xval_labels. set (parts := map _ uniq). split.
  - transitivity (concat (map fst parts) ++ concat (map snd parts)); [apply Permutation_app; [apply P|apply P']|]. unfold parts. rewrite (split_perm uniq (with_label labels) nt).
    apply NoDup_Permutation.
    + apply nodup_concat; [exact ND|intros a _; apply nodup_map_filter|]. intros a b x _ _ I1 I2. apply with_label_in in I1, I2. congruence.
    + apply seq_NoDup.
    + intro i. rewrite in_concat, in_seq. split.
      * intros (w & W & I). apply in_map_iff in W as (a & <- & _). apply with_label_in in I. split; [lia|]. cbn. apply nth_error_Some. congruence.
      * intros [_ L]. cbn in L. destruct (nth_error labels i) as [a|] eqn:E; [|apply nth_error_None in E; lia]. exists (with_label labels a). split; [apply in_map; apply U; apply nth_error_In with i; exact E|apply with_label_in; exact E].
  - intros l I. exists (firstn (nt (length (with_label labels l))) (with_label labels l)), (skipn (nt (length (with_label labels l))) (with_label labels l)). split; [apply firstn_skipn|]. split; [apply firstn_length|]. apply U in I. split; intros i J.
    + apply (Permutation_in _ (Permutation_sym (P _))). apply in_concat. eexists. split; [|exact J]. apply in_map_iff. eexists. split; [|unfold parts; apply in_map; exact I]. reflexivity.
    + apply (Permutation_in _ (Permutation_sym (P' _))). apply in_concat. eexists. split; [|exact J]. apply in_map_iff. eexists. split; [|unfold parts; apply in_map; exact I]. reflexivity.
Qed.
Print Assumptions C143_stratified.
(** All folds are the same: however often and with whatever random numbers it is repeated, the same samples are tested. *)
Theorem C143_folds_refuted : forall nt perm perm' perm2 perm2' labels uniq, (forall l, Permutation (perm l) l) -> (forall l, Permutation (perm' l) l) -> (forall l, Permutation (perm2 l) l) -> (forall l, Permutation (perm2' l) l) ->
  Permutation (fst (xval_labels nt perm perm' labels uniq)) (fst (xval_labels nt perm2 perm2' labels uniq)) /\ Permutation (snd (xval_labels nt perm perm' labels uniq)) (snd (xval_labels nt perm2 perm2' labels uniq)).
Proof. intros nt perm perm' perm2 perm2' labels uniq P P' P2 P2'. unfold xval_labels. cbn [fst snd]. split; [rewrite (P _), (P2 _)|rewrite (P' _), (P2' _)]; reflexivity. Qed.
Print Assumptions C143_folds_refuted.
Example C143_case : xval_labels (fun n => n - n / 2)%nat (@rev nat) (fun l => l) ["a"; "b"; "a"; "b"; "a"] ["a"; "b"] = ([1; 2; 0], [4; 3])%nat.
Proof. reflexivity. Qed.

(** ** C144: filling of missing values *)
Theorem C144_filled : forall nn1 col, (forall T x, T <> [] -> exists p, In p T /\ nn1 T x = snd p) ->
  let '(col', flag) := fill_column nn1 col in
  map fst col' = map fst col /\
  (forall i x v, nth_error col i = Some (x, Some v) -> nth_error col' i = Some (x, Some v)) /\
  (forall i x, nth_error col i = Some (x, None) -> exists v, nth_error col' i = Some (x, Some v) /\ ((flag = true /\ v = 0) \/ (flag = false /\ exists x', In (x', Some v) col))) /\
  (flag = true <-> col <> [] /\ forall p, In p col -> snd p = None).
Proof.
  intros nn1 col H. unfold fill_column. assert (D : forall p, In p (filter (fun p => negb (is_nan (snd p))) col) <-> In p col /\ snd p <> None). { intro p. rewrite filter_In. destruct (snd p); cbn; split; intros [A B]; split; try exact A; try congruence. }
  assert (ME : forall g : row * fl -> fl, map fst (map (fun p : row * fl => (fst p, g p)) col) = map fst col) by (intro g; rewrite map_map; reflexivity).
  destruct (existsb (fun p => is_nan (snd p)) col) eqn:E.
  - apply existsb_exists in E as (p0 & I0 & N0). destruct (filter (fun p => negb (is_nan (snd p))) col) as [|d ds] eqn:F.
    + split; [apply ME|]. split; [|split; [|split; [|reflexivity]]].
      * intros i x v N. exfalso. apply nth_error_In in N. destruct (D (x, Some v)) as [_ C]. apply C. split; [exact N|discriminate].
      * intros i x N. exists 0. split; [rewrite (map_nth_error _ i col N); reflexivity|]. left. split; reflexivity.
      * intros _. split; [intros ->; contradiction|]. intros p I. destruct (snd p) eqn:Q; [|reflexivity]. exfalso. destruct (D p) as [_ C]. apply C. split; [exact I|congruence].
    + split; [apply ME|]. split; [|split; [|split]].
      * intros i x v N. rewrite (map_nth_error _ i col N). reflexivity.
      * intros i x N. destruct (H (d :: ds) x ltac:(discriminate)) as ([x' w] & I & EQ). pose proof I as I'. apply D in I' as [IC NC]. cbn in EQ, NC. destruct w as [v|]; [|congruence]. exists v. split; [rewrite (map_nth_error _ i col N); cbn [fst snd is_nan]; rewrite EQ; reflexivity|]. right. split; [reflexivity|]. exists x'. exact IC.
      * discriminate.
      * intros [_ C]. exfalso. assert (I : In d (d :: ds)) by (left; reflexivity). apply D in I as [I N]. apply N. apply C. exact I.
  - assert (NN : forall p, In p col -> snd p <> None). { intros p I C. assert (existsb (fun p => is_nan (snd p)) col = true) by (apply existsb_exists; exists p; split; [exact I|rewrite C; reflexivity]). congruence. }
    split; [reflexivity|]. split; [auto|]. split; [intros i x N; exfalso; apply nth_error_In in N; apply (NN _ N); reflexivity|]. split; [discriminate|]. intros [NE C]. destruct col as [|p col]; [congruence|]. exfalso. apply (NN p (or_introl eq_refl)). apply C. left. reflexivity.
Qed.
Print Assumptions C144_filled.
Example C144_case : fill_column (fun T _ => snd (hd ([], None) T)) [([Some 1], None); ([Some 2], Some 5)] = ([([Some 1], Some 5); ([Some 2], Some 5)], false).
Proof. reflexivity. Qed.
