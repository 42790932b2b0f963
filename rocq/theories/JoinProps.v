(** C69: joining grids. *)
From Coq Require Import Ascii String List Bool PeanoNat ZArith QArith Sorted Wf_nat Lia.
From Verif Require Import PyBase PyList PyStr PySplit RloModel JoinModel.
Import ListNotations.
Open Scope string_scope.
Open Scope nat_scope.
Open Scope list_scope.

(** ** Specification *)
(** All runs of the grids, in order, with their datasets. *)
Fixpoint numbered {D} (g : grid D) (j : nat) (rs : list run) : list (run * (string -> option D)) :=
  match rs with [] => [] | r :: rs' => (r, gdata g j) :: numbered g (S j) rs' end.
Definition listing {D} (gs : list (grid D)) : list (run * (string -> option D)) := flat_map (fun g => numbered g 0 (gruns g)) gs.
Definition parameters {D} (L : list (run * (string -> option D))) (n : nat) (k : list string) : Prop :=
  exists r d, nth_error L n = Some (r, d) /\ initial_values_from_dirname (path r) = Ok k.
Definition left_out {D} (L : list (run * (string -> option D))) (n : nat) : Prop :=
  exists r d, nth_error L n = Some (r, d) /\ tf1 (fin r) = "ignored_no_RLO".
(** The last run of its parameters, if it is not left out. *)
Definition wins {D} (L : list (run * (string -> option D))) (n : nat) (k : list string) : Prop :=
  parameters L n k /\ ~ left_out L n /\ forall m, n < m -> ~ parameters L m k.
(** The first run of these parameters from which on none is left out. *)
Definition since {D} (L : list (run * (string -> option D))) (k : list string) (i : nat) : Prop :=
  parameters L i k /\ (forall m, i <= m -> parameters L m k -> ~ left_out L m) /\
  forall m, m < i -> parameters L m k -> exists q, m <= q < i /\ parameters L q k /\ left_out L q.
Definition SAVED := [ "binary_history"; "history1"; "history2"; "final_profile1"; "final_profile2" ].
(** A run in the new file: its path, initial values, flags and datasets. *)
Definition taken_over {D} (known : list system) (fixed : bool) (L : list (run * (string -> option D))) (n : nat) (new : run * list (string * D)) : Prop :=
  exists r d, nth_error L n = Some (r, d) /\ fst new = (if fixed then join_fix known r else r) /\ NoDup (map fst (snd new)) /\
    forall name x, In (name, x) (snd new) <-> In name SAVED /\ d name = Some x.

(** ** The selection *)
Definition pos := (nat * nat)%type.
Definition event := (pos * key * bool)%type.
Definition step (params : list (key * pos)) (e : event) : list (key * pos) :=
  let '(p, k, ig) := e in if ig then ddel params k else dset key_eqb params k p.
Lemma key_eqb_spec : forall a b : key, reflect (a = b) (key_eqb a b).
Proof.
  induction a as [|x a IH]; intros [|y b]; cbn; try (constructor; congruence). destruct (String.eqb_spec x y) as [-> |N]; cbn; [|constructor; congruence].
  destruct (IH b) as [-> |N]; constructor; congruence.
Qed.
Definition at_ (l : list event) (n : nat) (k : key) (ig : bool) : Prop := exists p, nth_error l n = Some (p, k, ig).
Definition rel (l : list event) (kp : key * pos) (i : nat) : Prop :=
  (exists n, nth_error l n = Some (snd kp, fst kp, false) /\ forall m ig, n < m -> ~ at_ l m (fst kp) ig) /\
  (exists ig, at_ l i (fst kp) ig) /\ (forall m, i <= m -> ~ at_ l m (fst kp) true) /\
  (forall m ig, m < i -> at_ l m (fst kp) ig -> exists q, m <= q < i /\ at_ l q (fst kp) true).
Lemma at_app l e n k ig : at_ (l ++ [e]) n k ig <-> at_ l n k ig \/ (n = length l /\ exists p, e = (p, k, ig)).
Proof.
  unfold at_. split.
  - intros [p P]. destruct (lt_eq_lt_dec n (length l)) as [[L| ->]|L].
    + rewrite nth_error_app1 in P by exact L. left. eauto.
    + rewrite nth_error_app2, Nat.sub_diag in P by lia. injection P as ->. right. eauto.
    + exfalso. assert (n < length (l ++ [e])) by (apply nth_error_Some; congruence). rewrite app_length in H. cbn in H. lia.
  - intros [[p P]|[-> [p ->]]].
    + exists p. rewrite nth_error_app1; [exact P|]. apply nth_error_Some. congruence.
    + exists p. rewrite nth_error_app2, Nat.sub_diag by lia. reflexivity.
Qed.
Lemma at_lt l n k ig : at_ l n k ig -> n < length l.
Proof. intros [p P]. apply nth_error_Some. congruence. Qed.
(** An event of other parameters changes nothing. *)
Lemma rel_other l p k' ig' kp i : k' <> fst kp -> rel l kp i -> rel (l ++ [(p, k', ig')]) kp i.
Proof.
  intros N ((n & Q & LN) & (ig & A) & B & C).
  assert (O : forall m ig, at_ (l ++ [(p, k', ig')]) m (fst kp) ig <-> at_ l m (fst kp) ig).
  { intros m ig0. rewrite at_app. split; [|auto]. intros [H|[_ [p0 H]]]; [exact H|]. congruence. }
  split; [|split; [|split]].
  - exists n. split; [rewrite nth_error_app1; [exact Q|apply nth_error_Some; congruence]|]. intros m ig0 L H. apply O in H. exact (LN m ig0 L H).
  - exists ig. apply O. exact A.
  - intros m L H. apply O in H. exact (B m L H).
  - intros m ig0 L H. apply O in H. destruct (C m ig0 L H) as (q & Lq & Hq). exists q. split; [exact Lq|]. apply O. exact Hq.
Qed.
Lemma dget_in (d : list (key * pos)) : forall k p, In (k, p) d -> In k (map fst d).
Proof. intros k p I. apply (in_map fst) in I. exact I. Qed.
Lemma dset_old : forall (d : list (key * pos)) k p, In k (map fst d) -> NoDup (map fst d) ->
  dset key_eqb d k p = map (fun kp => if key_eqb k (fst kp) then (fst kp, p) else kp) d /\ map fst (dset key_eqb d k p) = map fst d.
Proof.
  induction d as [|[k0 p0] d IH]; intros k p I ND; [destruct I|]. cbn in ND. inversion ND as [|? ? NI ND']; subst. cbn [dset map fst].
  destruct (key_eqb_spec k k0) as [-> |N].
  - split; [|reflexivity]. f_equal. rewrite <- (map_id d) at 1. apply map_ext_in. intros [k1 p1] I1. cbn.
    destruct (key_eqb_spec k0 k1) as [-> |]; [|reflexivity]. exfalso. apply NI. apply (in_map fst) in I1. exact I1.
  - destruct I as [I|I]; [cbn in I; congruence|]. destruct (IH k p I ND') as [E F]. split; [f_equal; exact E|]. cbn. f_equal. exact F.
Qed.
Lemma dset_new : forall (d : list (key * pos)) k p, ~ In k (map fst d) -> dset key_eqb d k p = d ++ [(k, p)].
Proof.
  induction d as [|[k0 p0] d IH]; intros k p NI; [reflexivity|]. cbn [dset]. destruct (key_eqb_spec k k0) as [-> |N]; [exfalso; apply NI; left; reflexivity|].
  cbn. f_equal. apply IH. intros I. apply NI. right. exact I.
Qed.
Lemma NoDup_app_snoc A (l : list A) x : NoDup l -> ~ In x l -> NoDup (l ++ [x]).
Proof.
  induction l as [|y l IH]; intros ND NI; [repeat constructor; intros []|]. inversion ND; subst. cbn. constructor; [|apply IH; [assumption|intros I; apply NI; right; exact I]].
  rewrite in_app_iff. cbn. intros [I|[I|[]]]; [contradiction|]. apply NI. left. congruence.
Qed.
Definition inv (l : list event) (d : list (key * pos)) : Prop :=
  NoDup (map fst d) /\ (forall k, In k (map fst d) <-> exists n, at_ l n k false /\ forall m ig, n < m -> ~ at_ l m k ig) /\
  exists starts, Forall2 (rel l) d starts /\ StronglySorted lt starts /\ Forall (fun i => i < length l) starts.
Lemma last_event (l : list event) k n ig : at_ l n k ig -> exists n' ig', n <= n' /\ at_ l n' k ig' /\ forall m ig'', n' < m -> ~ at_ l m k ig''.
Proof.
  intros A. remember (length l - n) as w eqn:W. revert n ig A W. induction w as [w IH] using lt_wf_ind. intros n ig A W.
  assert (DEC : (exists m ig'', n < m /\ at_ l m k ig'') \/ ~ (exists m ig'', n < m /\ at_ l m k ig'')).
  { destruct (existsb (fun m => match nth_error l m with Some (p, k', i) => key_eqb k k' | None => false end) (seq (S n) (length l - n))) eqn:X.
    - left. apply existsb_exists in X as (m & I & M). apply in_seq in I. destruct (nth_error l m) as [[[p k'] i]|] eqn:NM; [|discriminate].
      destruct (key_eqb_spec k k') as [<-|]; [|discriminate]. exists m, i. split; [lia|]. exists p. exact NM.
    - right. intros (m & i & L & AT). assert (LT := at_lt _ _ _ _ AT). destruct AT as [p NM].
      assert (F : existsb (fun m => match nth_error l m with Some (p, k', i) => key_eqb k k' | None => false end) (seq (S n) (length l - n)) = true).
      { apply existsb_exists. exists m. split; [apply in_seq; lia|]. rewrite NM. destruct (key_eqb_spec k k); congruence. }
      congruence. }
  destruct DEC as [(m & i & L & AT)|NO].
  - assert (LT := at_lt _ _ _ _ AT). destruct (IH (length l - m) ltac:(lia) m i AT eq_refl) as (n' & i' & L' & A' & F). exists n', i'. split; [lia|]. auto.
  - exists n, ig. split; [lia|]. split; [exact A|]. intros m ig'' L AT. apply NO. eauto.
Qed.
Lemma inv_step l d e : inv l d -> inv (l ++ [e]) (step d e).
Proof.
  intros (ND & KEYS & starts & F & ST & LT). destruct e as [[p k] ig]. unfold step.
  assert (SH : forall j, j < length l -> j < length (l ++ [(p, k, ig)])) by (intros j; rewrite app_length; cbn; lia).
  assert (LAST : at_ (l ++ [(p, k, ig)]) (length l) k ig) by (apply at_app; right; eauto).
  destruct ig.
  - (* removed *)
    assert (KF : map fst (ddel d k) = filter (fun k' => negb (key_eqb k k')) (map fst d)).
    { unfold ddel. clear. induction d as [|[k0 p0] d IH]; [reflexivity|]. cbn. destruct (key_eqb k k0); cbn; [exact IH|f_equal; exact IH]. }
    split; [rewrite KF; apply NoDup_filter; exact ND|]. split.
    + intros k'. rewrite KF, filter_In, KEYS. destruct (key_eqb_spec k k') as [<-|N]; cbn.
      * split; [intros [_ H]; discriminate|]. intros (n & A & B). exfalso. apply at_app in A as [A|[-> [p0 A]]]; [|congruence].
        apply (B (length l) true); [apply (at_lt _ _ _ _ A)|exact LAST].
      * assert (O : forall m ig, at_ (l ++ [(p, k, true)]) m k' ig <-> at_ l m k' ig) by (intros; rewrite at_app; split; [intros [H|[_ [q H]]]; [exact H|congruence]|auto]).
        split; [intros [(n & A & B) _]|intros (n & A & B); split; [|reflexivity]]; exists n; (split; [apply O; exact A|]); intros m ig L H; apply O in H; exact (B m ig L H).
    + clear KEYS KF. revert ND ST LT SH LAST. induction F as [|kp i d0 starts0 R F IH]; intros ND ST LT SH LAST.
      * exists []. repeat constructor.
      * cbn in ND. inversion ND as [|? ? NI ND']; subst. inversion ST as [|? ? ST' LE]; subst. inversion LT as [|? ? LI LT']; subst.
        destruct (IH ND' ST' LT' SH LAST) as (s' & F' & ST'' & LT''). cbn [ddel filter]. destruct (key_eqb_spec k (fst kp)) as [E|N]; cbn [negb].
        -- exists s'. auto.
        -- exists (i :: s'). split; [constructor; [apply rel_other; [exact N|exact R]|exact F']|]. split; [|constructor; [apply SH; exact LI|exact LT'']].
           constructor; [exact ST''|]. (* s' is a part of starts0: rebuild *)
           assert (G : forall j, In j s' -> In j starts0 \/ i < j).
           { intros j J. right. clear -F F' J LE ND'. (* every start of a remaining entry is one of the old starts *)
             assert (X : exists kp', In kp' (ddel d0 k) /\ rel (l ++ [(p, k, true)]) kp' j).
             { clear -F' J. induction F' as [|a b x y R0 F0 IH0]; [destruct J|]. destruct J as [<-|J]; [exists a; split; [left; reflexivity|exact R0]|].
               destruct (IH0 J) as (a' & I' & R'). exists a'. split; [right; exact I'|exact R']. }
             destruct X as (kp' & I' & R'). unfold ddel in I'. apply filter_In in I' as [I' NK].
             assert (Y : exists j', In j' starts0 /\ rel l kp' j').
             { clear -F I'. induction F as [|a b x y R0 F0 IH0]; [destruct I'|]. destruct I' as [<-|I']; [exists b; split; [left; reflexivity|exact R0]|].
               destruct (IH0 I') as (j' & J' & R'). exists j'. split; [right; exact J'|exact R']. }
             destruct Y as (j' & J' & Rj). destruct (key_eqb_spec k (fst kp')) as [|NE]; [discriminate|].
             assert (R2 := rel_other l p k true kp' j' NE Rj).
             assert (j = j').
             { destruct R' as (_ & (ga & A1) & B1 & C1). destruct R2 as (_ & (gb & A2) & B2 & C2).
               destruct (lt_eq_lt_dec j j') as [[L|L]|L]; [|exact L|].
               - exfalso. destruct (C2 j ga L A1) as (q & Lq & Hq). apply (B1 q); [lia|exact Hq].
               - exfalso. destruct (C1 j' gb L A2) as (q & Lq & Hq). apply (B2 q); [lia|exact Hq]. }
             subst j'. rewrite Forall_forall in LE. apply LE. exact J'. }
           apply Forall_forall. intros j J. destruct (G j J) as [H|H]; [rewrite Forall_forall in LE; apply LE; exact H|exact H].
  - destruct (in_dec (list_eq_dec string_dec) k (map fst d)) as [I|NI].
    + (* replaced *)
      destruct (dset_old d k p I ND) as [E EK]. split; [rewrite EK; exact ND|]. split.
      * intros k'. rewrite EK, KEYS. destruct (list_eq_dec string_dec k' k) as [-> |N].
        -- split; [intros _|intros _; apply KEYS; exact I]. exists (length l). split; [exact LAST|]. intros m ig L H. apply at_lt in H. rewrite app_length in H. cbn in H. lia.
        -- assert (O : forall m ig, at_ (l ++ [(p, k, false)]) m k' ig <-> at_ l m k' ig) by (intros; rewrite at_app; split; [intros [H|[_ [q H]]]; [exact H|congruence]|auto]).
           split; intros (n & A & B); exists n; (split; [apply O; exact A|]); intros m ig L H; apply O in H; exact (B m ig L H).
      * exists starts. split; [|split; [exact ST|eapply Forall_impl; [|exact LT]; exact SH]]. rewrite E. clear -F ND LT LAST.
        induction F as [|[k0 p0] i d0 starts0 R F IH]; [constructor|]. cbn in ND. inversion ND as [|? ? NI ND']; subst. inversion LT as [|? ? LI LT']; subst.
        cbn [map fst]. constructor; [|apply IH; assumption]. destruct (key_eqb_spec k k0) as [<-|N]; [|apply rel_other; [exact N|exact R]].
        destruct R as (_ & (ig & A) & B & C). cbn [fst snd] in *. split; [|split; [|split]]; cbn [fst snd].
        -- exists (length l). split; [rewrite nth_error_app2, Nat.sub_diag by lia; reflexivity|]. intros m ig0 L H. apply at_lt in H. rewrite app_length in H. cbn in H. lia.
        -- exists ig. apply at_app. left. exact A.
        -- intros m L H. apply at_app in H as [H|[_ [q H]]]; [exact (B m L H)|congruence].
        -- intros m ig0 L H. apply at_app in H as [H|[-> _]]; [|lia]. destruct (C m ig0 L H) as (q & Lq & Hq). exists q. split; [exact Lq|]. apply at_app. left. exact Hq.
    + (* added *)
      rewrite (dset_new d k p NI). split; [rewrite map_app; apply NoDup_app_snoc; [exact ND|exact NI]|]. split.
      * intros k'. rewrite map_app, in_app_iff, KEYS. cbn. destruct (list_eq_dec string_dec k' k) as [-> |N].
        -- split; [intros _|intros _; right; left; reflexivity]. exists (length l). split; [exact LAST|]. intros m ig L H. apply at_lt in H. rewrite app_length in H. cbn in H. lia.
        -- assert (O : forall m ig, at_ (l ++ [(p, k, false)]) m k' ig <-> at_ l m k' ig) by (intros; rewrite at_app; split; [intros [H|[_ [q H]]]; [exact H|congruence]|auto]).
           split.
           ++ intros [(n & A & B)|[H|[]]]; [|congruence]. exists n. split; [apply O; exact A|]. intros m ig L H. apply O in H. exact (B m ig L H).
           ++ intros (n & A & B). left. exists n. split; [apply O; exact A|]. intros m ig L H. apply O in H. exact (B m ig L H).
      * exists (starts ++ [length l]). split; [|split].
        -- apply Forall2_app.
           ++ clear -F NI. induction F as [|kp i d0 starts0 R F IH]; [constructor|]. constructor; [|apply IH; intros H; apply NI; right; exact H].
              apply rel_other; [|exact R]. intros ->. apply NI. left. reflexivity.
           ++ constructor; [|constructor]. split; [|split; [|split]]; cbn [fst snd].
              ** exists (length l). split; [rewrite nth_error_app2, Nat.sub_diag by lia; reflexivity|]. intros m ig0 L H. apply at_lt in H. rewrite app_length in H. cbn in H. lia.
              ** exists false. exact LAST.
              ** intros m L H. apply at_app in H as [H|[_ [q H]]]; [apply at_lt in H; lia|congruence].
              ** intros m ig0 L H. apply at_app in H as [H|[-> _]]; [|lia].
                 destruct (last_event l k m ig0 H) as (n' & ig' & L' & A' & B'). exists n'. split; [split; [exact L'|apply (at_lt _ _ _ _ A')]|]. apply at_app. left.
                 destruct ig'; [exact A'|]. exfalso. apply NI. apply KEYS. exists n'. auto.
        -- clear -ST LT. induction ST as [|i s ST IH LE]; [repeat constructor|]. inversion LT as [|? ? LI LT']; subst. cbn. constructor; [apply IH; exact LT'|].
           apply Forall_app. split; [exact LE|]. constructor; [exact LI|constructor].
        -- apply Forall_app. split; [eapply Forall_impl; [|exact LT]; exact SH|]. constructor; [rewrite app_length; cbn; lia|constructor].
Qed.

(** ** From the grids to the events *)
Definition name_of (r : run) : result key := initial_values_from_dirname (path r).
Definition out (r : run) : bool := String.eqb (tf1 (fin r)) "ignored_no_RLO".
Fixpoint evs (i j : nat) (rs : list run) (ks : list key) : list event :=
  match rs, ks with r :: rs', k :: ks' => ((i, j), k, out r) :: evs i (S j) rs' ks' | _, _ => [] end.
Lemma select_runs_spec : forall rs i j params,
  (exists ks, Forall2 (fun r k => name_of r = Ok k) rs ks /\ select_runs i j rs params = Ok (fold_left step (evs i j rs ks) params)) \/
  (exists r e, In r rs /\ name_of r = Raise e /\ select_runs i j rs params = Raise e).
Proof.
  induction rs as [|r rs IH]; intros i j params; [left; exists []; split; [constructor|reflexivity]|]. cbn [select_runs]. fold (name_of r). fold (out r).
  destruct (name_of r) as [k|e] eqn:N; cbn [rbind].
  - destruct (IH i (S j) (if out r then ddel params k else dset key_eqb params k (i, j))) as [(ks & F & E)|(r' & e & I & Q & E)].
    + left. exists (k :: ks). split; [constructor; assumption|]. rewrite E. reflexivity.
    + right. exists r', e. split; [right; exact I|]. auto.
  - right. exists r, e. split; [left; reflexivity|]. auto.
Qed.
Fixpoint gevs {D} (i : nat) (gs : list (grid D)) (kss : list (list key)) : list event :=
  match gs, kss with g :: gs', ks :: kss' => evs i 0 (gruns g) ks ++ gevs (S i) gs' kss' | _, _ => [] end.
Lemma select_grids_spec D : forall (gs : list (grid D)) i params,
  (exists kss, Forall2 (fun g ks => Forall2 (fun r k => name_of r = Ok k) (gruns g) ks) gs kss /\ select_grids i gs params = Ok (fold_left step (gevs i gs kss) params)) \/
  (exists g r e, In g gs /\ In r (gruns g) /\ name_of r = Raise e /\ select_grids i gs params = Raise e).
Proof.
  induction gs as [|g gs IH]; intros i params; [left; exists []; split; [constructor|reflexivity]|]. cbn [select_grids].
  destruct (select_runs_spec (gruns g) i 0 params) as [(ks & F & E)|(r & e & I & Q & E)]; rewrite E; cbn [rbind].
  - destruct (IH (S i) (fold_left step (evs i 0 (gruns g) ks) params)) as [(kss & F' & E')|(g' & r & e & I' & I & Q & E')].
    + left. exists (ks :: kss). split; [constructor; assumption|]. rewrite E'. cbn [gevs]. rewrite fold_left_app. reflexivity.
    + right. exists g', r, e. split; [right; exact I'|]. auto.
  - right. exists g, r, e. split; [left; reflexivity|]. auto.
Qed.
Definition corr {D} (all : list (grid D)) (x : run * (string -> option D)) (e : event) : Prop :=
  let '(p, k, ig) := e in name_of (fst x) = Ok k /\ ig = out (fst x) /\
  exists g, nth_error all (fst p) = Some g /\ nth_error (gruns g) (snd p) = Some (fst x) /\ snd x = gdata g (snd p).
Lemma corr_runs D (all : list (grid D)) i g : nth_error all i = Some g -> forall rs pre ks, gruns g = pre ++ rs -> Forall2 (fun r k => name_of r = Ok k) rs ks ->
  Forall2 (corr all) (numbered g (length pre) rs) (evs i (length pre) rs ks).
Proof.
  intros G. induction rs as [|r rs IH]; intros pre ks E F; inversion F as [|? k ? ks' N F' Q1 Q2]; subst; [constructor|]. cbn [numbered evs]. constructor.
  - cbn. split; [exact N|]. split; [reflexivity|]. exists g. split; [exact G|]. split; [|reflexivity]. rewrite E, nth_error_app2, Nat.sub_diag by lia. reflexivity.
  - specialize (IH (pre ++ [r]) ks'). rewrite app_length in IH. cbn [length] in IH. replace (length pre + 1) with (S (length pre)) in IH by lia.
    apply IH; [rewrite <- app_assoc; exact E|exact F'].
Qed.
Lemma corr_grids D (all : list (grid D)) : forall gs pre kss, all = pre ++ gs -> Forall2 (fun g ks => Forall2 (fun r k => name_of r = Ok k) (gruns g) ks) gs kss ->
  Forall2 (corr all) (listing gs) (gevs (length pre) gs kss).
Proof.
  induction gs as [|g gs IH]; intros pre kss E F; inversion F as [|? ks ? kss' N F' Q1 Q2]; subst; [constructor|]. unfold listing. cbn [flat_map gevs]. apply Forall2_app.
  - apply (corr_runs D _ (length pre) g) with (pre := []); [rewrite nth_error_app2, Nat.sub_diag by lia; reflexivity|reflexivity|exact N].
  - specialize (IH (pre ++ [g]) kss'). rewrite app_length in IH. cbn [length] in IH. replace (length pre + 1) with (S (length pre)) in IH by lia.
    apply IH; [rewrite <- app_assoc; reflexivity|exact F'].
Qed.
Lemma forall2_nth A B (R : A -> B -> Prop) : forall l l', Forall2 R l l' -> forall n,
  (forall x, nth_error l n = Some x -> exists y, nth_error l' n = Some y /\ R x y) /\ (forall y, nth_error l' n = Some y -> exists x, nth_error l n = Some x /\ R x y).
Proof.
  intros l l' F. induction F as [|x y l l' R0 F IH]; intros [|n]; cbn; try (split; discriminate).
  - split; intros z E; injection E as <-; eauto.
  - apply IH.
Qed.
Lemma each_spec A B (f : A -> result B) : forall l, (forall r, each f l = Ok r <-> Forall2 (fun x y => f x = Ok y) l r).
Proof.
  induction l as [|x l IH]; intros r; cbn [each].
  - split; [intros E; injection E as <-; constructor|]. intros F. inversion F. reflexivity.
  - destruct (f x) as [y|e] eqn:E; cbn [rbind].
    + destruct (each f l) as [r'|e]; cbn [rbind].
      * split; [intros Q; injection Q as <-; constructor; [exact E|apply IH; reflexivity]|]. intros F. inversion F as [|? y' ? r0 Fx F' Q1 Q2]; subst.
        apply IH in F'. congruence.
      * split; [discriminate|]. intros F. inversion F as [|? y' ? r0 Fx F' Q1 Q2]; subst. apply IH in F'. discriminate.
    + split; [discriminate|]. intros F. inversion F. congruence.
Qed.

Section Bridge.
  Context {D : Type}.
  Variables (gs : list (grid D)) (l : list event).
  Hypothesis C : Forall2 (corr gs) (listing gs) l.
  Lemma par_at n k : parameters (listing gs) n k <-> exists ig, at_ l n k ig.
  Proof using C.
    destruct (forall2_nth _ _ _ _ _ C n) as [A B]. split.
    - intros (r & d & N & K). destruct (A _ N) as ([[p k'] ig] & E & (K' & _)). cbn in K'. unfold name_of in K'. assert (k = k') by congruence. subst. exists ig, p. exact E.
    - intros (ig & p & E). destruct (B _ E) as ([r d] & N & (K' & _)). exists r, d. split; [exact N|exact K'].
  Qed.
  Lemma out_at n k : parameters (listing gs) n k -> (left_out (listing gs) n <-> at_ l n k true).
  Proof using C.
    intros P. apply par_at in P as (ig & p & E). destruct (forall2_nth _ _ _ _ _ C n) as [_ B]. destruct (B _ E) as ([r d] & N & (_ & G & _)). cbn in G. split.
    - intros (r' & d' & N' & T). assert (r' = r) by congruence. subst r'. exists p. rewrite E, G. unfold out. rewrite T. reflexivity.
    - intros (p' & E'). exists r, d. split; [exact N|]. assert (ig = true) by congruence. subst ig. unfold out in H. apply String.eqb_eq. congruence.
  Qed.
  Lemma not_out_at n k : parameters (listing gs) n k -> ~ left_out (listing gs) n -> at_ l n k false.
  Proof using C. intros P O. destruct (proj1 (par_at n k) P) as ([|] & A); [|exact A]. exfalso. apply O, (out_at n k P). exact A. Qed.
  Lemma wins_at n k : wins (listing gs) n k <-> at_ l n k false /\ forall m ig, n < m -> ~ at_ l m k ig.
  Proof using C.
    split.
    - intros (P & O & N). split; [apply not_out_at; assumption|]. intros m ig L A. apply (N m L). apply par_at. eauto.
    - intros [A N]. assert (P : parameters (listing gs) n k) by (apply par_at; eauto). split; [exact P|]. split.
      + intros O. apply (out_at n k P) in O. destruct A as [p A], O as [q O]. congruence.
      + intros m L P'. apply par_at in P' as (ig & A'). exact (N m ig L A').
  Qed.
  Lemma rel_wins k p i : rel l (k, p) i -> exists n r d, nth_error (listing gs) n = Some (r, d) /\ wins (listing gs) n k /\ since (listing gs) k i /\
    exists g, nth_error gs (fst p) = Some g /\ nth_error (gruns g) (snd p) = Some r /\ d = gdata g (snd p).
  Proof using C.
    intros ((n & E & N) & (ig & A) & B & S'). cbn [fst snd] in *. destruct (proj2 (forall2_nth _ _ _ _ _ C n) _ E) as ([r d] & NL & (_ & _ & g & G1 & G2 & G3)). cbn in G1, G2, G3.
    exists n, r, d. split; [exact NL|]. split; [apply wins_at; split; [exists p; exact E|exact N]|]. split; [|exists g; auto].
    split; [apply par_at; eauto|]. split.
    - intros m L P O. apply (out_at m k P) in O. exact (B m L O).
    - intros m L P. apply par_at in P as (ig' & A'). destruct (S' m ig' L A') as (q & Lq & Hq). exists q. split; [exact Lq|].
      assert (P : parameters (listing gs) q k) by (apply par_at; eauto). split; [exact P|]. apply (out_at q k P). exact Hq.
  Qed.
End Bridge.
Lemma inv_nil : inv [] [].
Proof.
  split; [constructor|]. split; [|exists []; repeat constructor]. intros k. split; [intros []|]. intros (n & [p A] & _). destruct n; discriminate.
Qed.
Lemma inv_fold : forall l, inv l (fold_left step l []).
Proof. induction l as [|e l IH] using rev_ind; [apply inv_nil|]. rewrite fold_left_app. apply inv_step. exact IH. Qed.
Lemma copied D (gs : list (grid D)) fx known p g r new : nth_error gs (fst p) = Some g -> nth_error (gruns g) (snd p) = Some r ->
  copy_run gs fx known p = Ok new -> fst new = (if fx then join_fix known r else r) /\ NoDup (map fst (snd new)) /\
  forall name x, In (name, x) (snd new) <-> In name SAVED /\ gdata g (snd p) name = Some x.
Proof.
  intros G R. unfold copy_run, item. rewrite G. cbn [rbind]. rewrite R. cbn [rbind]. intros E. injection E as <-. cbn [fst snd]. split; [reflexivity|].
  assert (I : forall name x, In (name, x) (flat_map (fun name => match gdata g (snd p) name with Some d => [(name, d)] | None => [] end) SUBARRAYS) <-> In name SAVED /\ gdata g (snd p) name = Some x).
  { intros name x. rewrite in_flat_map. split.
    - intros (n & I & H). destruct (gdata g (snd p) n) as [d|] eqn:E; [|destruct H]. destruct H as [H|[]]. injection H as <- <-. split; [exact I|exact E].
    - intros [I E]. exists name. split; [exact I|]. rewrite E. left. reflexivity. }
  split; [|exact I]. clear I. unfold SUBARRAYS. cbn [flat_map].
  destruct (gdata g (snd p) "binary_history"), (gdata g (snd p) "history1"), (gdata g (snd p) "history2"), (gdata g (snd p) "final_profile1"), (gdata g (snd p) "final_profile2");
    cbn; repeat (constructor; [cbn; intuition discriminate|]); constructor.
Qed.

(** The runs of the new file. *)
Theorem C69_runs : forall D (gs : list (grid D)) compression description J v, join_grids gs compression description = Ok J ->
  dget String.eqb (jconfig J) "initial_RLO_fix" = Some v ->
  exists order starts,
    Forall2 (fun n i => exists k, wins (listing gs) n k /\ since (listing gs) k i) order starts /\ StronglySorted lt starts /\
    (forall n k, wins (listing gs) n k -> In n order) /\
    Forall2 (taken_over (merge_detected (map (fun g => gruns g) gs)) (truth v) (listing gs)) order (jruns J).
Proof.
  intros D gs compression description J v H V. unfold join_grids in H.
  destruct (new_config gs compression description) as [c|] eqn:NC; [|discriminate]. cbn [rbind] in H.
  destruct (select_grids_spec D gs 0 []) as [(kss & F & E)|(g & r & e & _ & _ & _ & E)]; rewrite E in H; cbn [rbind] in H; [|discriminate].
  destruct (lookup c "initial_RLO_fix") as [f|] eqn:LK; [|discriminate]. cbn [rbind] in H.
  destruct (packing_of compression) as [pk|]; [|discriminate]. cbn [rbind] in H.
  destruct (each _ _) as [rs|] eqn:EA; [|discriminate]. cbn [rbind] in H. injection H as <-. cbn [jconfig jruns] in *.
  assert (f = v). { unfold lookup in LK. rewrite V in LK. congruence. } subst f.
  apply each_spec in EA. assert (C := corr_grids D gs gs [] kss eq_refl F). cbn [length] in C.
  destruct (inv_fold (gevs 0 gs kss)) as (_ & KEYS & starts & R & ST & _). set (l := gevs 0 gs kss) in *. set (d := fold_left step l []) in *.
  assert (G : exists order, Forall2 (fun n i => exists k, wins (listing gs) n k /\ since (listing gs) k i) order starts /\
    (forall k p, In (k, p) d -> exists n, In n order /\ wins (listing gs) n k) /\ Forall2 (taken_over (merge_detected (map (fun g => gruns g) gs)) (truth v) (listing gs)) order rs).
  { change (Forall2 (fun x y => copy_run gs (truth v) (merge_detected (map (fun g => gruns g) gs)) x = Ok y) (map snd d) rs) in EA. clear KEYS ST E V. clearbody d. revert rs EA. induction R as [|[k p] i d0 starts0 R0 R IH]; intros rs EA.
    - cbn in EA. inversion EA; subst. exists []. split; [constructor|]. split; [intros k p []|constructor].
    - cbn [map] in EA. inversion EA as [|? new ? rs' CP EA' Q1 Q2]; subst. destruct (IH rs' EA') as (order & F1 & F2 & F3).
      destruct (rel_wins gs l C k p i R0) as (n & r & dt & N & W & SI & g & G1 & G2 & G3). exists (n :: order). split; [constructor; [exists k; auto|exact F1]|]. split.
      + intros k' p' [Q|I]; [injection Q as <- <-; exists n; split; [left; reflexivity|exact W]|]. destruct (F2 k' p' I) as (m & Im & Wm). exists m. split; [right; exact Im|exact Wm].
      + constructor; [|exact F3]. exists r, dt. split; [exact N|]. cbn [snd] in CP. rewrite G3. apply (copied D gs (truth v) _ p g r new G1 G2 CP). }
  destruct G as (order & F1 & F2 & F3). exists order, starts. split; [exact F1|]. split; [exact ST|]. split; [|exact F3].
  intros n k W. assert (I : In k (map fst d)) by (apply KEYS; exists n; apply (wins_at gs l C); exact W).
  apply in_map_iff in I as ([k' p] & Q & I). cbn in Q. subst k'. destruct (F2 k p I) as (m & Im & (P' & O' & N')).
  destruct (lt_eq_lt_dec n m) as [[L|L]|L].
  - exfalso. destruct W as (_ & _ & N0). exact (N0 m L P').
  - subst. exact Im.
  - exfalso. exact (N' n L (proj1 W)).
Qed.

(** ** The configuration *)
Definition KEYS := [ "description"; "max_number_of_runs"; "format"; "compression"; "history_DS_error"; "history_DS_exclude"; "profile_DS_error"; "profile_DS_exclude";
  "profile_DS_interval"; "star1_history_saved_columns"; "star2_history_saved_columns"; "binary_history_saved_columns"; "star1_profile_saved_columns";
  "star2_profile_saved_columns"; "initial_value_columns"; "final_value_columns"; "start_at_RLO"; "binary"; "eep"; "initial_RLO_fix"; "He_core_fix";
  "accept_missing_profile"; "stop_before_carbon_depletion" ].
Definition AGREEING := [ "binary"; "eep"; "start_at_RLO"; "stop_before_carbon_depletion"; "initial_RLO_fix"; "He_core_fix"; "accept_missing_profile";
  "history_DS_error"; "history_DS_exclude"; "profile_DS_error"; "profile_DS_exclude"; "profile_DS_interval" ].
Definition EMPTIED := [ "max_number_of_runs"; "star1_history_saved_columns"; "star2_history_saved_columns"; "binary_history_saved_columns";
  "star1_profile_saved_columns"; "star2_profile_saved_columns"; "initial_value_columns"; "final_value_columns" ].
Definition numeric (v : cval) : option Q := match v with CBool true => Some 1%Q | CBool false => Some 0%Q | CNum q => Some q | _ => None end.
Definition equal_value (a b : cval) : Prop := a = b \/ exists x y, numeric a = Some x /\ numeric b = Some y /\ (x == y)%Q.
(** Letters are compared without regard to case. *)
Definition any_case (s t : string) : Prop :=
  Forall2 (fun c d => nat_of_ascii d = if (65 <=? nat_of_ascii c) && (nat_of_ascii c <=? 90) then nat_of_ascii c + 32 else nat_of_ascii c) (list_ascii_of_string s) (list_ascii_of_string t).
Definition PACKINGS := [ ("", Unpacked); ("lzf", Lzf); ("gzip", Gzip None); ("gzip0", Gzip (Some 0)); ("gzip1", Gzip (Some 1)); ("gzip2", Gzip (Some 2)); ("gzip3", Gzip (Some 3));
  ("gzip4", Gzip (Some 4)); ("gzip5", Gzip (Some 5)); ("gzip6", Gzip (Some 6)); ("gzip7", Gzip (Some 7)); ("gzip8", Gzip (Some 8)); ("gzip9", Gzip (Some 9)) ].
Definition packed_as (c : cval) (p : packing) : Prop := (c = CNone /\ p = Unpacked) \/ exists s t, c = CStr s /\ In (t, p) PACKINGS /\ any_case s t.
Definition has_value (c : config) (k : string) (v : cval) : Prop := In (k, v) c.
(** When the grids can be joined. *)
Definition joinable {D} (gs : list (grid D)) (compression : cval) : Prop :=
  (forall g, In g gs -> forall k, In k (map fst (gconfig g)) <-> In k KEYS) /\
  (exists first, nth_error gs 0 = Some first /\ has_value (gconfig first) "format" (CStr "hdf5") /\
     forall g, In g gs -> itype g = itype first /\ ftype g = ftype first /\
       forall p, In p AGREEING -> exists a b, has_value (gconfig first) p a /\ has_value (gconfig g) p b /\ equal_value a b) /\
  (forall n, n < length (listing gs) -> exists k, parameters (listing gs) n k) /\
  exists p, packed_as compression p.

Lemma cval_eqb_iff a b : cval_eqb a b = true <-> equal_value a b.
Proof.
  unfold equal_value. destruct a as [|x|x|x|x], b as [|y|y|y|y]; cbn; try (split; [discriminate|intros [E|(u & v & A & B & _)]; discriminate]).
  - split; auto.
  - destruct x, y; cbn; split; auto; try discriminate; intros [E|(u & v & A & B & Q)]; try discriminate; injection A as <-; injection B as <-; discriminate.
  - rewrite Qeq_bool_iff. destruct x; cbn; (split; [intros Q; right; eauto|intros [E|(u & v & A & B & Q)]; [discriminate|injection A as <-; injection B as <-; exact Q]]).
  - rewrite Qeq_bool_iff. destruct y; cbn; (split; [intros Q; right; eauto|intros [E|(u & v & A & B & Q)]; [discriminate|injection A as <-; injection B as <-; exact Q]]).
  - rewrite Qeq_bool_iff. split; [intros Q; right; eauto|]. intros [E|(u & v & A & B & Q)]; [injection E as ->; reflexivity|injection A as <-; injection B as <-; exact Q].
  - rewrite String.eqb_eq. split; [intros ->; auto|]. intros [E|(u & v & A & B & _)]; congruence.
  - destruct (key_eqb_spec x y) as [-> |N]; split; auto; try discriminate. intros [E|(u & v & A & B & _)]; congruence.
Qed.
Lemma has_dget c k v : NoDup (map fst c) -> (has_value c k v <-> dget String.eqb c k = Some v).
Proof.
  unfold has_value. induction c as [|[k0 v0] c IH]; intros ND; [split; [intros []|discriminate]|]. cbn in ND. inversion ND as [|? ? NI ND']; subst. cbn [dget In].
  destruct (String.eqb_spec k k0) as [-> |N].
  - split; [intros [E|I]; [congruence|exfalso; apply NI; apply (in_map fst) in I; exact I]|]. intros E. left. congruence.
  - rewrite IH by exact ND'. split; [intros [E|E]; [congruence|exact E]|auto].
Qed.
Lemma lookup_has c k v : NoDup (map fst c) -> (lookup c k = Ok v <-> has_value c k v).
Proof. intros ND. rewrite (has_dget c k v ND). unfold lookup. destruct (dget String.eqb c k); split; congruence. Qed.
Lemma keys_ok c : NoDup (map fst c) -> (check_keys c = true <-> forall k, In k (map fst c) <-> In k KEYS).
Proof.
  intros ND. assert (SAME : forall k, In k ALL_PROPERTIES <-> In k KEYS).
  { intros k. split; intros I; cbn in I; repeat destruct I as [<-|I]; try (cbn; tauto); destruct I. }
  assert (NK : NoDup KEYS) by (repeat constructor; cbn; intuition discriminate).
  assert (NA : NoDup ALL_PROPERTIES) by (cbn; repeat constructor; cbn; intuition discriminate).
  unfold check_keys. rewrite andb_true_iff, Nat.eqb_eq, forallb_forall. split.
  - intros [L A] k. assert (INC : incl (map fst c) ALL_PROPERTIES).
    { intros k' I. apply in_map_iff in I as ([k0 v] & E & I). cbn in E. subst k0. specialize (A _ I). apply existsb_exists in A as (x & X & Q). cbn in Q. apply String.eqb_eq in Q. subst. exact X. }
    rewrite <- SAME. split; [apply INC|]. apply (NoDup_length_incl ND); [rewrite map_length; lia|exact INC].
  - intros H. split.
    + rewrite <- (map_length fst c). change (length ALL_PROPERTIES) with (length KEYS). apply Nat.le_antisymm; apply NoDup_incl_length; try assumption; intros k I; apply H; exact I.
    + intros [k v] I. apply existsb_exists. exists k. split; [apply SAME, H; apply (in_map fst) in I; exact I|apply String.eqb_refl].
Qed.
Lemma same_ok props new cur : NoDup (map fst new) -> NoDup (map fst cur) ->
  (check_same props new cur = Ok tt <-> forall p, In p props -> exists a b, has_value new p a /\ has_value cur p b /\ equal_value a b).
Proof.
  intros N1 N2. induction props as [|p props IH]; [split; [intros _ p []|reflexivity]|]. cbn [check_same].
  split.
  - destruct (lookup new p) as [a|] eqn:A; [|discriminate]. cbn [rbind]. destruct (lookup cur p) as [b|] eqn:B; [|discriminate]. cbn [rbind].
    destruct (cval_eqb a b) eqn:Q; [|discriminate]. intros E q [<-|I]; [|apply (proj1 IH E q I)].
    exists a, b. split; [apply (lookup_has new p a N1); exact A|]. split; [apply (lookup_has cur p b N2); exact B|]. apply cval_eqb_iff. exact Q.
  - intros H. destruct (H p (or_introl eq_refl)) as (a & b & A & B & Q). apply (lookup_has new p a N1) in A. apply (lookup_has cur p b N2) in B. apply cval_eqb_iff in Q.
    rewrite A. cbn [rbind]. rewrite B. cbn [rbind]. rewrite Q. apply IH. intros q I. apply H. right. exact I.
Qed.
Lemma grids_ok D (first : grid D) : forall gs, NoDup (map fst (gconfig first)) -> (forall g, In g gs -> NoDup (map fst (gconfig g))) ->
  (check_grids first gs = Ok tt <-> forall g, In g gs -> (forall k, In k (map fst (gconfig g)) <-> In k KEYS) /\ itype g = itype first /\ ftype g = ftype first /\
     forall p, In p AGREEING -> exists a b, has_value (gconfig first) p a /\ has_value (gconfig g) p b /\ equal_value a b).
Proof.
  intros gs N1. induction gs as [|g gs IH]; intros N2; [split; [intros _ g []|reflexivity]|]. cbn [check_grids].
  assert (NG := N2 g (or_introl eq_refl)). specialize (IH (fun g' I => N2 g' (or_intror I))).
  assert (S0 := same_ok PROPERTIES_TO_BE_CONSISTENT _ _ N1 NG). change PROPERTIES_TO_BE_CONSISTENT with AGREEING in S0 at 2. split.
  - destruct (check_keys (gconfig g)) eqn:K; [|discriminate]. cbn [negb]. destruct (check_same _ _ _) as [[]|] eqn:C; [|discriminate]. cbn [rbind].
    destruct (Nat.eqb_spec (itype first) (itype g)) as [TI|]; [|discriminate]. destruct (Nat.eqb_spec (ftype first) (ftype g)) as [TF|]; [|discriminate]. cbn [negb].
    intros E g' [<-|I]; [|apply (proj1 IH E g' I)]. split; [apply (keys_ok _ NG); exact K|]. split; [congruence|]. split; [congruence|]. apply (proj1 S0 eq_refl).
  - intros H. destruct (H g (or_introl eq_refl)) as (K & TI & TF & C). rewrite (proj2 (keys_ok _ NG) K). cbn [negb]. rewrite (proj2 S0 C). cbn [rbind].
    rewrite TI, TF, !Nat.eqb_refl. cbn [negb]. apply IH. intros g' I. apply H. right. exact I.
Qed.
Lemma lower_case s t : any_case s t <-> t = lower s.
Proof.
  unfold any_case, lower. split.
  - intros F. rewrite <- (string_of_list_ascii_of_string t). f_equal. symmetry. induction F as [|c d l l' E F IH]; [reflexivity|]. cbn [map]. f_equal; [|exact IH].
    destruct ((65 <=? nat_of_ascii c) && (nat_of_ascii c <=? 90)).
    + rewrite <- E. apply ascii_nat_embedding.
    + rewrite <- (ascii_nat_embedding d), E. symmetry. apply ascii_nat_embedding.
  - intros ->. rewrite list_ascii_of_string_of_list_ascii. induction (list_ascii_of_string s) as [|c l IH]; [constructor|]. cbn [map]. constructor; [|exact IH].
    cbv zeta. destruct ((65 <=? nat_of_ascii c) && (nat_of_ascii c <=? 90)) eqn:Q; [|reflexivity]. apply andb_prop in Q as [_ Q]. apply Nat.leb_le in Q.
    apply nat_ascii_embedding. lia.
Qed.
Lemma packing_ok c p : packing_of c = Ok p <-> packed_as c p.
Proof.
  unfold packed_as. split.
  - destruct c as [|b|q|s|l]; cbn [packing_of]; try discriminate; [intros E; left; split; [reflexivity|congruence]|]. intros E. right. exists s, (lower s). split; [reflexivity|].
    split; [|apply lower_case; reflexivity]. revert E. generalize (lower s). clear s. intros s. cbv zeta.
    destruct (String.eqb_spec s "") as [-> |_]; [intros E; injection E as <-; cbn; tauto|]. destruct (String.eqb_spec s "lzf") as [-> |_]; [intros E; injection E as <-; cbn; tauto|].
    destruct (prefix "gzip" s) eqn:P; [|discriminate]. apply prefix_exists in P as [r ->]. destruct (String.eqb_spec ("gzip" ++ r)%string "gzip") as [E|_].
    + intros Q. injection Q as <-. rewrite E. cbn. tauto.
    + change (sdrop 4 ("gzip" ++ r)%string) with r. destruct r as [|ch [|ch2 r]]; try discriminate. destruct ((48 <=? nat_of_ascii ch) && (nat_of_ascii ch <=? 57)) eqn:R; [|discriminate].
      apply andb_prop in R as [R1 R2]. apply Nat.leb_le in R1, R2. intros Q. injection Q as <-. rewrite <- (ascii_nat_embedding ch) at 1.
      assert (CASES : exists k, nat_of_ascii ch = 48 + k /\ k < 10) by (exists (nat_of_ascii ch - 48); lia). destruct CASES as (k & -> & LK).
      do 10 (destruct k as [|k]; [cbn; tauto|]). lia.
  - intros [[-> ->]|(s & t & -> & I & A)]; [reflexivity|]. apply lower_case in A. cbn [packing_of]. cbv zeta. rewrite <- A. clear s A.
    cbn in I. repeat destruct I as [I|I]; try (injection I as <- <-; vm_compute; reflexivity). destruct I.
Qed.
Lemma params_total D (gs : list (grid D)) kss : Forall2 (fun g ks => Forall2 (fun r k => name_of r = Ok k) (gruns g) ks) gs kss -> forall n, n < length (listing gs) -> exists k, parameters (listing gs) n k.
Proof.
  intros F n L. assert (C := corr_grids D gs gs [] kss eq_refl F). apply nth_error_Some in L. destruct (nth_error (listing gs) n) as [[r d]|] eqn:N; [|congruence].
  destruct (proj1 (forall2_nth _ _ _ _ _ C n) _ N) as ([[p k] ig] & _ & (K & _)). exists k, r, d. split; [exact N|exact K].
Qed.
Lemma listing_in D (gs : list (grid D)) g r : In g gs -> In r (gruns g) -> exists n d, nth_error (listing gs) n = Some (r, d).
Proof.
  intros G R. assert (X : exists d, In (r, d) (numbered g 0 (gruns g))).
  { generalize 0. revert R. induction (gruns g) as [|r0 rs IH]; intros R j; [destruct R|]. destruct R as [<-|R]; [eexists; left; reflexivity|].
    destruct (IH R (S j)) as (d & H). exists d. right. exact H. }
  destruct X as [d X]. assert (I : In (r, d) (listing gs)) by (apply in_flat_map; exists g; auto). apply In_nth_error in I as [n I]. eauto.
Qed.
(** Grids are joined exactly if they can be, and this is the configuration then. *)
Theorem C69_joinable : forall D (gs : list (grid D)) compression description, (forall g, In g gs -> NoDup (map fst (gconfig g))) ->
  ((exists J, join_grids gs compression description = Ok J) <-> joinable gs compression).
Proof.
  intros D gs compression description ND. unfold join_grids, joinable. split.
  - intros [J H]. destruct (new_config gs compression description) as [c|] eqn:NC; [|discriminate]. cbn [rbind] in H.
    destruct (select_grids_spec D gs 0 []) as [(kss & F & E)|(g & r & e & _ & _ & _ & E)]; rewrite E in H; cbn [rbind] in H; [|discriminate].
    destruct (lookup c "initial_RLO_fix") as [f|] eqn:LK; [|discriminate]. cbn [rbind] in H.
    destruct (packing_of compression) as [pk|] eqn:PK; [|discriminate]. unfold new_config in NC. destruct gs as [|g gs]; [discriminate|].
    destruct (check_keys (gconfig g)) eqn:K; [|discriminate]. cbn [negb] in NC. destruct (check_grids g gs) as [[]|] eqn:CG; [|discriminate]. cbn [rbind] in NC.
    destruct (lookup (gconfig g) "format") as [fm|] eqn:FM; [|discriminate]. cbn [rbind] in NC. destruct (cval_eqb fm (CStr "hdf5")) eqn:Q; [|discriminate].
    assert (NG := ND g (or_introl eq_refl)). assert (CG' := proj1 (grids_ok D g gs NG (fun g' I => ND g' (or_intror I))) CG). clear CG. rename CG' into CG.
    assert (KG := proj1 (keys_ok _ NG) K). split; [intros g' [<-|I]; [exact KG|apply CG; exact I]|]. split.
    + exists g. split; [reflexivity|]. split.
      * apply (lookup_has _ _ _ NG) in FM. apply cval_eqb_iff in Q as [-> |(x & y & _ & B & _)]; [exact FM|discriminate].
      * intros g' [<-|I]; [|apply CG; exact I]. split; [reflexivity|]. split; [reflexivity|]. intros p I.
        assert (IK : In p (map fst (gconfig g))) by (apply KG; cbn in I; repeat destruct I as [<-|I]; try (cbn; tauto); destruct I).
        apply in_map_iff in IK as ([p' a] & EP & IK). cbn in EP. subst p'. exists a, a. split; [exact IK|]. split; [exact IK|]. left. reflexivity.
    + split; [apply (params_total D (g :: gs) kss F)|]. exists pk. apply packing_ok. exact PK.
  - intros (KS & (g & G0 & FM & AG) & PAR & pk & PK). destruct gs as [|g' gs]; [discriminate|]. cbn in G0. injection G0 as ->.
    assert (NG := ND g (or_introl eq_refl)). unfold new_config. rewrite (proj2 (keys_ok _ NG) (KS g (or_introl eq_refl))). cbn [negb].
    assert (CG : check_grids g gs = Ok tt).
    { apply (grids_ok D g gs NG (fun g' I => ND g' (or_intror I))). intros g' I. split; [apply KS; right; exact I|apply AG; right; exact I]. }
    rewrite CG. cbn [rbind]. rewrite (proj2 (lookup_has _ _ _ NG) FM). cbn [rbind]. change (cval_eqb (CStr "hdf5") (CStr "hdf5")) with true. cbn [rbind].
    destruct (select_grids_spec D (g :: gs) 0 []) as [(kss & F & E)|(g' & r & e & IG & IR & Q & E)].
    + rewrite E. cbn [rbind]. set (c := dset _ (dset _ _ _ _) _ _).
      destruct (AG g (or_introl eq_refl)) as (_ & _ & AGG). destruct (AGG "initial_RLO_fix" ltac:(cbn; tauto)) as (f & _ & HF & _).
      apply (has_dget _ _ _ NG) in HF.
      assert (LK : lookup c "initial_RLO_fix" = Ok f).
      { unfold lookup, c. rewrite !(dget_dset String.eqb_spec). cbn [String.eqb Ascii.eqb Bool.eqb]. rewrite (dget_dset_all String.eqb_spec).
        change (last_write String.eqb PROPERTIES_TO_BE_NONE "initial_RLO_fix") with (@None cval). rewrite HF. reflexivity. }
      rewrite LK. cbn [rbind]. rewrite (proj2 (packing_ok _ _) PK). cbn [rbind].
      assert (C := corr_grids D (g :: gs) (g :: gs) [] kss eq_refl F). cbn [length] in C.
      destruct (inv_fold (gevs 0 (g :: gs) kss)) as (_ & _ & starts & R & _). set (l := gevs 0 (g :: gs) kss) in *. set (d := fold_left step l []) in *.
      assert (X : exists rs, each (copy_run (g :: gs) (truth f) (merge_detected (map (fun g => gruns g) (g :: gs)))) (map snd d) = Ok rs).
      { clear -R C. clearbody d. induction R as [|[k p] i d0 starts0 R0 R IH]; [eexists; reflexivity|]. destruct IH as [rs E].
        destruct (rel_wins (g :: gs) l C k p i R0) as (n & r & dt & _ & _ & _ & g' & G1 & G2 & _). change (map snd ((k, p) :: d0)) with (p :: map snd d0). cbn [each]. unfold copy_run at 1. unfold item. rewrite G1. cbn [rbind]. rewrite G2. cbn [rbind].
        rewrite E. eexists. reflexivity. }
      destruct X as [rs X]. exists (Joined c pk rs). refine (f_equal (fun t => rbind t (fun rs => Ok (Joined c pk rs))) X).
    + exfalso. destruct (listing_in D (g :: gs) g' r IG IR) as (n & dt & N). destruct (PAR n) as (k & r' & d' & N' & K'); [apply nth_error_Some; congruence|].
      assert (r' = r) by congruence. subst. unfold name_of in Q. congruence.
Qed.
Theorem C69_config : forall D first (rest : list (grid D)) compression description J, NoDup (map fst (gconfig first)) ->
  join_grids (first :: rest) compression description = Ok J -> forall k v, dget String.eqb (jconfig J) k = Some v <->
    (k = "description" /\ v = description) \/ (k = "compression" /\ v = compression) \/ (In k EMPTIED /\ v = CNone) \/
    (In k ("format" :: AGREEING) /\ has_value (gconfig first) k v).
Proof.
  intros D g gs compression description J NG H k v. unfold join_grids in H.
  destruct (new_config (g :: gs) compression description) as [c|] eqn:NC; [|discriminate]. cbn [rbind] in H.
  destruct (select_grids 0 (g :: gs) []); [|discriminate]. cbn [rbind] in H. destruct (lookup c "initial_RLO_fix"); [|discriminate]. cbn [rbind] in H.
  destruct (packing_of compression); [|discriminate]. cbn [rbind] in H. destruct (each _ _); [|discriminate]. cbn [rbind] in H. injection H as <-. cbn [jconfig].
  unfold new_config in NC. destruct (check_keys (gconfig g)) eqn:K; [|discriminate]. cbn [negb] in NC. destruct (check_grids g gs) as [[]|] eqn:CG; [|discriminate]. cbn [rbind] in NC.
  destruct (lookup (gconfig g) "format") as [fm|]; [|discriminate]. cbn [rbind] in NC. destruct (cval_eqb fm (CStr "hdf5")); [|discriminate].
  assert (EC : c = dset String.eqb (dset String.eqb (dset_all String.eqb (gconfig g) PROPERTIES_TO_BE_NONE) "compression" compression) "description" description) by congruence.
  clear NC. subst c. rewrite 2!(dget_dset String.eqb_spec). rewrite (dget_dset_all String.eqb_spec). assert (KG := proj1 (keys_ok _ NG) K).
  destruct (String.eqb_spec k "description") as [-> |N1].
  - split; [intros E; left; split; congruence|]. intros [[_ ->]|[[E _]|[[I _]|[I _]]]]; [reflexivity|discriminate| |]; exfalso; cbn in I; intuition discriminate.
  - destruct (String.eqb_spec k "compression") as [-> |N2].
    + split; [intros E; right; left; split; congruence|]. intros [[E _]|[[_ ->]|[[I _]|[I _]]]]; [discriminate|reflexivity| |]; exfalso; cbn in I; intuition discriminate.
    + destruct (last_write String.eqb PROPERTIES_TO_BE_NONE k) as [w|] eqn:LW.
      * assert (X : In k EMPTIED /\ w = CNone).
        { destruct (in_dec string_dec k EMPTIED) as [I|NI].
          - split; [exact I|]. cbn in I. repeat destruct I as [<-|I]; try (cbn in LW; congruence). destruct I.
          - exfalso. assert (LW' : last_write String.eqb PROPERTIES_TO_BE_NONE k = None); [|congruence]. unfold last_write, PROPERTIES_TO_BE_NONE. cbn [fold_left fst snd].
            repeat match goal with |- context [String.eqb k ?s] => rewrite (proj2 (String.eqb_neq k s)) by (intros ->; apply NI; cbn; tauto) end. reflexivity. }
        destruct X as [I ->]. split; [intros E; right; right; left; split; [exact I|congruence]|]. intros [[E _]|[[E _]|[[_ ->]|[I' _]]]]; try congruence. exfalso.
        cbn in I, I'. repeat destruct I as [<-|I]; try (intuition discriminate); destruct I.
      * assert (NI : ~ In k EMPTIED) by (intros I; cbn in I; repeat destruct I as [<-|I]; try discriminate; destruct I).
        rewrite <- (has_dget _ _ _ NG). split.
        -- intros HV. right. right. right. split; [|exact HV]. assert (IK : In k KEYS) by (apply KG; apply (in_map fst) in HV; exact HV).
           cbn in IK. repeat destruct IK as [<-|IK]; try (cbn; tauto); try congruence; try (exfalso; apply NI; cbn; tauto); destruct IK.
        -- intros [[E _]|[[E _]|[[I _]|[_ HV]]]]; try congruence; contradiction.
Qed.
Print Assumptions C69_runs.
Print Assumptions C69_joinable.
Print Assumptions C69_config.

(** ** Cases *)
Definition conf (description : string) (fixed : bool) : config :=
  [ ("description", CStr description); ("max_number_of_runs", CNum 3); ("format", CStr "hdf5"); ("compression", CStr "gzip9"); ("history_DS_error", CNone);
    ("history_DS_exclude", CList ["model_number"; "age"]); ("profile_DS_error", CNone); ("profile_DS_exclude", CList ["mass"]); ("profile_DS_interval", CNone);
    ("star1_history_saved_columns", CStr "all"); ("star2_history_saved_columns", CStr "all"); ("binary_history_saved_columns", CStr "all");
    ("star1_profile_saved_columns", CStr "all"); ("star2_profile_saved_columns", CStr "all"); ("initial_value_columns", CNone); ("final_value_columns", CNone);
    ("start_at_RLO", CBool false); ("binary", CBool true); ("eep", CNone); ("initial_RLO_fix", CBool fixed); ("He_core_fix", CBool true);
    ("accept_missing_profile", CBool false); ("stop_before_carbon_depletion", CBool false) ].
Definition sample (m1 p dir flag : string) (x : Q) : run :=
  Run (dir ++ "/m1_" ++ m1 ++ "_m2_5_initial_period_in_days_" ++ p ++ "_initial_z_0.02_grid_index_0") (Values x 5 2 []) (Flags flag "no_RLOF" "a" "b" "no_MT").
Definition old : grid nat := Grid (conf "old" false) 1 2 [sample "10" "1" "old" "max_age" 10; sample "11" "1" "old" "max_age" 11; sample "12" "1" "old" "max_age" 12]
  (fun j name => if String.eqb name "history1" then Some (100 + j) else None).
Definition rerun : grid nat := Grid (conf "rerun" false) 1 2 [sample "11" "1" "new" "ignored_no_RLO" 11; sample "10" "1" "new" "logQ_min_limit" 10; sample "11" "1" "again" "max_age" 11]
  (fun j name => if String.eqb name "binary_history" then Some (200 + j) else None).
Example C69_case : match join_grids [old; rerun] (CStr "LZF") (CStr "both") with
  | Ok J => jpacking J = Lzf /\ map (fun x => (path (fst x), tf1 (fin (fst x)), snd x)) (jruns J) =
      [("new/m1_10_m2_5_initial_period_in_days_1_initial_z_0.02_grid_index_0", "logQ_min_limit", [("binary_history", 201)]);
       ("old/m1_12_m2_5_initial_period_in_days_1_initial_z_0.02_grid_index_0", "max_age", [("history1", 102)]);
       ("again/m1_11_m2_5_initial_period_in_days_1_initial_z_0.02_grid_index_0", "max_age", [("binary_history", 202)])]
  | Raise _ => False
  end /\ Forall (fun g => NoDup (map fst (gconfig g))) [old; rerun].
Proof. split; [vm_compute; auto|]. repeat constructor; cbn; intuition discriminate. Qed.
(** The format of the first grid only is looked at. *)
Theorem C69_format_refuted : exists (g g' : grid nat) J, In ("format", CStr "ascii") (gconfig g') /\ join_grids [g; g'] (CStr "gzip9") (CStr "") = Ok J.
Proof.
  exists old, (Grid (dset String.eqb (conf "x" false) "format" (CStr "ascii")) 1 2 [] (fun _ _ => None)). eexists. split; [cbn; tauto|]. vm_compute. reflexivity.
Qed.
(** The boundary also counts runs which are not in the new grid: a substituted run still decides about the others. *)
Definition crowd (f : string) (x : nat) : list run := map (fun k => Run ("o/m1_" ++ String (ascii_of_nat (48 + k)) "_m2_5_initial_period_in_days_1_initial_z_0.02")
  (Values (inject_Z (Z.of_nat (k + x))) 5 2 []) (Flags (if Nat.eqb k 9 then f else OVERFLOWING) "initial_RLOF" "a" "b" "initial_MT")) (seq 0 10).
Definition crowded (d f : string) (x : nat) : grid nat := Grid (conf d true) 1 2 (crowd f x) (fun _ _ => None).
Theorem C69_substituted_refuted : exists (gs : list (grid nat)) J r, join_grids gs (CStr "gzip9") (CStr "") = Ok J /\
  In r (map fst (jruns J)) /\ tf1 (fin r) = "forced_initial_RLO" /\
  length (filter (fun r => String.eqb (tf1 (fin r)) "Terminate because of overflowing initial model") (map fst (jruns J))) < 20.
Proof.
  exists [crowded "a" OVERFLOWING 0; crowded "b" OVERFLOWING 10; Grid (conf "c" true) 1 2 [Run "o/m1_50_m2_5_initial_period_in_days_1_initial_z_0.02" (Values 5 5 1 []) (Flags "max_age" "no_RLOF" "a" "b" "no_MT")] (fun _ _ => None)].
  eexists. eexists. split; [vm_compute; reflexivity|]. split; [cbn; right; right; right; right; right; right; right; right; right; right; left; reflexivity|].
  split; [reflexivity|]. vm_compute. lia.
Qed.
Print Assumptions C69_format_refuted.
Print Assumptions C69_substituted_refuted.
