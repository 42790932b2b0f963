(** Proofs about the columns kept by the built-in hooks. *)
From Coq Require Import String List Bool ZArith Lia Arith.
From Verif Require Import PyBase FlowChartModel BinaryModel BinarySpec EvolveProofs HistoryProofs.
Import ListNotations.
Open Scope string_scope.
Open Scope list_scope.

Lemma col_post_step_grow : forall c v b l, cols (bc b) c = Some l -> length l < n_rows b ->
  col_post_step c v b
  = Some (with_bc b (set_col (bc b) c (l ++ [v] ++ repeat VNone (n_rows b - length l - 1)))).
Proof.
  intros c v b l C L. unfold col_post_step. rewrite C. fold (n_rows b). cbv zeta.
  rewrite app_length. cbn [length].
  destruct (Z.of_nat (n_rows b) >? Z.of_nat (length l + 1))%Z eqn:G.
  - apply Z.gtb_lt in G. do 3 f_equal. rewrite <- app_assoc. do 3 f_equal. lia.
  - rewrite Z.gtb_ltb in G. apply Z.ltb_ge in G.
    destruct (Z.of_nat (n_rows b) <? Z.of_nat (length l + 1))%Z eqn:G2; [apply Z.ltb_lt in G2; lia|].
    replace (n_rows b - length l - 1) with 0 by lia. cbn [repeat]. rewrite app_nil_r. reflexivity.
Qed.

(** The shortening branch leaves one entry too few. *)
Lemma col_post_step_trim : forall c v b l, cols (bc b) c = Some l -> n_rows b <= length l -> 2 <= n_rows b ->
  exists b' l', col_post_step c v b = Some b' /\ cols (bc b') c = Some l' /\ n_rows b' = n_rows b
    /\ length l' = n_rows b - 1.
Proof.
  intros c v b l C L H. unfold col_post_step. rewrite C. fold (n_rows b). cbv zeta.
  rewrite app_length. cbn [length].
  destruct (Z.of_nat (n_rows b) >? Z.of_nat (length l + 1))%Z eqn:G; [apply Z.gtb_lt in G; lia|].
  destruct (Z.of_nat (n_rows b) <? Z.of_nat (length l + 1))%Z eqn:G2; [|apply Z.ltb_ge in G2; lia].
  eexists. eexists. split; [reflexivity|]. cbn [bc with_bc cols set_col].
  rewrite upd_same. split; [reflexivity|]. split; [reflexivity|].
  unfold py_suffix. rewrite skipn_length, app_length. cbn [length].
  destruct (- (Z.of_nat (n_rows b) - 1) <? 0)%Z eqn:E; [apply Z.ltb_lt in E|apply Z.ltb_ge in E]; lia.
Qed.

Section H.
  Context {Ext : Type}.
  Implicit Types (pr : properties Ext) (w : world Ext).

  (** ** Splitting a phase at hook [k] *)
  Lemma number_app : forall A B (f : hook_id -> B) (g : A -> actor Ext) l1 x l2,
    exists r1 r2, number f g (l1 ++ x :: l2) = r1 ++ (f (HookNo (length l1)), g x) :: r2
      /\ (forall c a, In (c, a) r1 -> exists j h, j < length l1 /\ nth_error l1 j = Some h
             /\ c = f (HookNo j) /\ a = g h)
      /\ (forall c a, In (c, a) r2 -> exists j h, nth_error l2 j = Some h
             /\ c = f (HookNo (S (length l1) + j)) /\ a = g h).
  Proof.
    intros A B f g l1 x l2. unfold number.
    assert (IN : forall (l : list A) s c a,
      In (c, a) (map (fun nx => (f (HookNo (fst nx)), g (snd nx))) (combine (seq s (length l)) l)) ->
      exists j h, nth_error l j = Some h /\ c = f (HookNo (s + j)) /\ a = g h).
    { induction l as [|y l IH]; intros s c a H; [destruct H|]. cbn [length seq combine map] in H.
      destruct H as [H|H].
      - inversion H; subst. exists 0, y. rewrite Nat.add_0_r. auto.
      - apply IH in H as (j & h & E1 & E2 & E3). exists (S j), h. split; [exact E1|].
        split; [|exact E3]. rewrite E2. f_equal. f_equal. lia. }
    assert (SP : forall s, combine (seq s (length (l1 ++ x :: l2))) (l1 ++ x :: l2)
      = combine (seq s (length l1)) l1 ++ (s + length l1, x) :: combine (seq (S (s + length l1)) (length l2)) l2).
    { clear IN. induction l1 as [|y l1 IH]; intro s.
      - cbn [app length seq combine]. rewrite Nat.add_0_r. reflexivity.
      - cbn [app length seq combine]. rewrite IH. do 4 f_equal; try lia.
        rewrite Nat.add_succ_r. reflexivity. }
    rewrite SP, map_app. cbn [map fst snd]. eexists. eexists. split; [reflexivity|]. split.
    - intros c a H. apply IN in H as (j & h & E1 & E2 & E3). exists j, h.
      split; [apply nth_error_Some; congruence|]. auto.
    - intros c a H. apply IN in H as (j & h & E1 & E2 & E3). exists j, h. auto.
  Qed.

  Definition only_neutral (c : string) (l : list (callee * actor Ext)) := forall x a, In (x, a) l -> neutral c a.

  Lemma call_neutral : forall c x (a : actor Ext) w w' r, neutral c a -> call x a w = (w', r) ->
    cols (bc (wb w')) c = cols (bc (wb w)) c /\ n_rows (wb w') = n_rows (wb w).
  Proof.
    intros c x a w w' r N H. unfold call in H. destruct (a (wb w) (we w)) as [[b e] o] eqn:E.
    inversion H; subst. cbn [wb]. eapply N; exact E.
  Qed.
  Lemma call_all_neutral : forall c l w w' r, only_neutral c l -> call_all l w = (w', r) ->
    cols (bc (wb w')) c = cols (bc (wb w)) c /\ n_rows (wb w') = n_rows (wb w).
  Proof.
    intros c l. induction l as [|[x a] l IH]; intros w w' r N H; cbn [call_all] in H.
    - inversion H; subst. auto.
    - destruct (call x a w) as [w1 r1] eqn:E.
      destruct (call_neutral c x a w w1 r1 (N x a (or_introl eq_refl)) E) as [A B].
      destruct r1; [inversion H; subst; auto|].
      destruct (IH w1 w' r (fun y b I => N y b (or_intror I)) H) as [A' B']. split; congruence.
  Qed.
  Lemma call_all_app : forall l1 l2 w,
    call_all (l1 ++ l2) w
    = match call_all l1 w with (w', Some e) => (w', Some e) | (w', None) => call_all l2 w' end.
  Proof.
    induction l1 as [|[x a] l1 IH]; intros l2 w; [reflexivity|]. cbn [app call_all].
    destruct (call x a w) as [w1 [e|]]; [reflexivity|]. apply IH.
  Qed.

  Lemma posted_app : forall k a b, posted k (a ++ b) = posted k a ++ posted k b.
  Proof.
    intros k a b. induction a as [|x a IH]; [reflexivity|]. cbn [app posted].
    destruct x as [c r| | |]; try exact IH. destruct c; try exact IH. destruct h; try exact IH.
    destruct r; try exact IH. destruct (Nat.eqb n k); [|exact IH]. cbn [app]. rewrite IH. reflexivity.
  Qed.
  Lemma posted_none : forall k l, (forall j s, In (ECall (PostStep (HookNo j) s) None) l -> j <> k) ->
    posted k l = [].
  Proof.
    intros k l. induction l as [|x l IH]; intro H; [reflexivity|]. cbn [posted].
    assert (IH' : posted k l = []) by (apply IH; intros j s I; apply (H j s); right; exact I).
    destruct x as [c r| | |]; try exact IH'. destruct c; try exact IH'. destruct h; try exact IH'.
    destruct r; try exact IH'. destruct (Nat.eqb_spec n k); [|exact IH'].
    exfalso. apply (H n s); [left; reflexivity|assumption].
  Qed.

  Section Setup.
    Variables (pr : properties Ext) (k : nat) (c : string) (init : val) (entry_of : step_name -> Ext -> val).
    Hypothesis ST : column_setup pr k c init entry_of.

    Lemma phase_split : forall B (f : hook_id -> B) (g : hook Ext -> actor Ext) (o : option (actor Ext)) (P : actor Ext -> Prop),
      (forall j h, j <> k -> nth_error (p_hooks pr) j = Some h -> P (g h)) ->
      (forall a, o = Some a -> P a) ->
      exists h r1 r2, nth_error (p_hooks pr) k = Some h /\ column_hook c init entry_of h
        /\ number f g (p_hooks pr) ++ extra f o = r1 ++ (f (HookNo k), g h) :: r2
        /\ (forall x a, In (x, a) r1 \/ In (x, a) r2 ->
              P a /\ (exists i, x = f i /\ i <> HookNo k)).
    Proof.
      intros B f g o P HP HO. destruct ST as ((h & E & HC) & _).
      destruct (nth_error_split _ _ E) as (l1 & l2 & EL & Len).
      destruct (number_app _ _ f g l1 h l2) as (r1 & r2 & N & I1 & I2). rewrite <- EL in N.
      exists h, r1, (r2 ++ extra f o). split; [exact E|]. split; [exact HC|].
      rewrite N, Len, <- app_assoc. split; [reflexivity|].
      intros x a [HI|HI].
      - apply I1 in HI as (j & h' & L & E1 & -> & ->). split; [|exists (HookNo j); split; [reflexivity|]].
        + apply (HP j); [lia|]. rewrite EL, nth_error_app1 by lia. exact E1.
        + intro Q; inversion Q; lia.
      - apply in_app_or in HI as [HI|HI].
        + apply I2 in HI as (j & h' & E1 & -> & ->).
          split; [|exists (HookNo (S (length l1) + j)); split; [reflexivity|intro Q; inversion Q; lia]].
          apply (HP (S (length l1) + j)); [lia|]. rewrite EL, nth_error_app2 by lia.
          replace (S (length l1) + j - length l1) with (S j) by lia. exact E1.
        + destruct o as [a0|]; [|destruct HI]. destruct HI as [HI|[]]. inversion HI; subst.
          split; [apply HO; reflexivity|]. exists ExtraFn. split; [reflexivity|discriminate].
    Qed.

    Lemma pre_step_neutral : forall s, only_neutral c (pre_step_calls pr s).
    Proof.
      intro s. destruct ST as (_ & HO & _ & _ & HX & _).
      destruct (phase_split _ (fun h => PreStep h s) (fun x => h_pre_step x s)
                  (option_map (fun f => f s) (p_extra_pre_step pr)) (neutral c)) as (h & r1 & r2 & E & HC & N & P).
      - intros j h J E. apply (HO j h J E).
      - intros a HA. destruct (p_extra_pre_step pr) as [f|] eqn:F; [|discriminate]. cbn in HA.
        inversion HA; subst. eapply HX; reflexivity.
      - unfold pre_step_calls. rewrite N. intros x a HI. apply in_app_or in HI as [HI|[HI|HI]].
        + apply (P x a). auto.
        + inversion HI; subst. apply HC.
        + apply (P x a). auto.
    Qed.

    Lemma post_phase : forall s, exists h r1 r2, column_hook c init entry_of h
      /\ post_step_calls pr s = r1 ++ (PostStep (HookNo k) s, h_post_step h s) :: r2
      /\ only_neutral c r1 /\ only_neutral c r2
      /\ posted k (all_ok (map fst r1)) = [] /\ posted k (all_ok (map fst r2)) = [].
    Proof.
      intro s. destruct ST as (_ & HO & _ & _ & _ & HX).
      destruct (phase_split _ (fun h => PostStep h s) (fun x => h_post_step x s)
                  (option_map (fun f => f s) (p_extra_post_step pr)) (neutral c)) as (h & r1 & r2 & E & HC & N & P).
      - intros j h J E. apply (HO j h J E).
      - intros a HA. destruct (p_extra_post_step pr) as [f|] eqn:F; [|discriminate]. cbn in HA.
        inversion HA; subst. eapply HX; reflexivity.
      - exists h, r1, r2. split; [exact HC|]. split; [exact N|].
        split; [intros x a HI; apply (P x a); auto|]. split; [intros x a HI; apply (P x a); auto|].
        assert (Q : forall r : list (callee * actor Ext), (forall x a, In (x, a) r -> exists i, x = PostStep i s /\ i <> HookNo k) ->
                  posted k (all_ok (map fst r)) = []).
        { intros r Hr. apply posted_none. intros j s' HI. unfold all_ok in HI. rewrite map_map in HI.
          apply in_map_iff in HI as ([x a] & E1 & HI). cbn in E1. inversion E1; subst.
          apply Hr in HI as (i & E2 & NE). inversion E2; subst. intros ->. apply NE. reflexivity. }
        split; apply Q; intros x a HI; apply (P x a); auto.
    Qed.

    (** After the post-step phase a short column with one more row fits. *)
    Lemma post_phase_col : forall s w w' l,
      cols (bc (wb w)) c = Some l -> length l < n_rows (wb w) ->
      forall r, call_all (post_step_calls pr s) w = (w', r) ->
      n_rows (wb w') = n_rows (wb w)
      /\ (r = None -> exists e, cols (bc (wb w')) c
            = Some (l ++ [entry_of s e] ++ repeat VNone (n_rows (wb w) - length l - 1)))
      /\ column_short c (wb w').
    Proof.
      intros s w w' l C L r H. destruct (post_phase s) as (h & r1 & r2 & HC & E & N1 & N2 & _).
      rewrite E, call_all_app in H. destruct (call_all r1 w) as [w1 o1] eqn:E1.
      destruct (call_all_neutral c r1 w w1 o1 N1 E1) as [A1 B1].
      destruct o1 as [e1|].
      { inversion H; subst. split; [assumption|]. split; [discriminate|].
        exists l. rewrite A1, B1. split; [assumption|lia]. }
      cbn [call_all] in H. unfold call in H.
      destruct HC as (_ & _ & HP & _). rewrite HP in H. unfold lift in H.
      assert (L1 : length l < n_rows (wb w1)) by lia.
      rewrite (col_post_step_grow c (entry_of s (we w1)) (wb w1) l) in H; [|congruence|exact L1].
      set (nl := l ++ [entry_of s (we w1)] ++ repeat VNone (n_rows (wb w1) - length l - 1)) in *.
      apply call_all_neutral with (c := c) in H; [|exact N2]. destruct H as [A2 B2].
      cbn [wb bc with_bc cols set_col] in A2, B2. rewrite upd_same in A2.
      change (n_rows (with_bc (wb w1) (set_col (bc (wb w1)) c nl))) with (n_rows (wb w1)) in B2.
      split; [congruence|]. split.
      - intros _. exists (we w1). rewrite A2. unfold nl. rewrite B1. reflexivity.
      - exists nl. split; [exact A2|]. rewrite B2. unfold nl.
        rewrite !app_length, repeat_length. cbn [length]. lia.
    Qed.

    Lemma append_col : forall b, cols (bc (append_state b)) c = cols (bc b) c.
    Proof.
      intro b. unfold append_state. destruct (unrecorded b); [reflexivity|]. cbn [bc].
      rewrite append_cols. reflexivity.
    Qed.
    Lemma append_n_rows : forall b, n_rows (append_state b) = if unrecorded b then n_rows b else S (n_rows b).
    Proof.
      intro b. unfold append_state, n_rows. destruct (unrecorded b); [reflexivity|]. cbn [bc].
      rewrite append_hist_in; [|apply BP_nodup|right; left; reflexivity].
      rewrite app_length. cbn [length]. lia.
    Qed.

    Hypothesis STEPS : forall s f, p_step pr s = Some f -> extending c f.

    Lemma run_step_short : forall w w' r, column_short c (wb w) -> run_step pr w = (w', r) ->
      column_short c (wb w').
    Proof.
      intros w w' r (l & C & L) H. unfold run_step in H.
      destruct (inb key_eqb _ UNDEFINED_STATES); [inversion H; subst; exists l; auto|].
      destruct (p_flow pr (total_state (wb w))) as [s|]; [|inversion H; subst; exists l; auto].
      destruct (p_step pr s) as [f|] eqn:F; [|inversion H; subst; exists l; auto].
      destruct (call_all (pre_step_calls pr s) _) as [w1 r1] eqn:E1.
      apply call_all_neutral with (c := c) in E1; [|apply pre_step_neutral]. destruct E1 as [A1 B1].
      cbn [wb log] in A1, B1.
      destruct r1; [inversion H; subst; exists l; rewrite A1, B1; auto|].
      unfold call in H. destruct (f (wb w1) (we w1)) as [[b2 e2] o] eqn:E2.
      destruct (STEPS s f F _ _ _ _ _ E2) as [A2 B2].
      destruct o; [inversion H; subst; exists l; cbn [wb]; split; [congruence|lia]|].
      unfold post_step, log in H. cbn [wb we walarm wlog] in H. rewrite append_state_unrec in H.
      destruct (unrecorded b2) eqn:U.
      - inversion H; subst. exists l. cbn [wb]. rewrite append_col, append_n_rows, U. split; [congruence|lia].
      - eapply post_phase_col with (l := l); [| |exact H]; cbn [wb].
        + rewrite append_col. congruence.
        + rewrite append_n_rows, U. lia.
    Qed.

    (** A recorded step makes the column fit; an unrecorded one does if it added no row. *)
    Lemma run_step_fits : forall w w', column_short c (wb w) -> run_step pr w = (w', None) ->
      (column_fits c (wb w) -> (forall s f, p_step pr s = Some f -> tidy_redirects f) -> column_fits c (wb w')).
    Proof.
      intros w w' _ H (l & C & L) TR. unfold run_step in H.
      destruct (inb key_eqb _ UNDEFINED_STATES); [discriminate|].
      destruct (p_flow pr (total_state (wb w))) as [s|]; [|discriminate].
      destruct (p_step pr s) as [f|] eqn:F; [|discriminate].
      destruct (call_all (pre_step_calls pr s) _) as [w1 r1] eqn:E1.
      apply call_all_neutral with (c := c) in E1; [|apply pre_step_neutral]. destruct E1 as [A1 B1].
      cbn [wb log] in A1, B1. destruct r1; [discriminate|].
      unfold call in H. destruct (f (wb w1) (we w1)) as [[b2 e2] o] eqn:E2.
      destruct (STEPS s f F _ _ _ _ _ E2) as [A2 B2].
      destruct o; [discriminate|].
      unfold post_step, log in H. cbn [wb we walarm wlog] in H. rewrite append_state_unrec in H.
      destruct (unrecorded b2) eqn:U.
      - inversion H; subst. exists l. cbn [wb]. rewrite append_col, append_n_rows, U. split; [congruence|].
        rewrite (TR s f F _ _ _ _ _ E2); [lia|]. apply unrecorded_iff. assumption.
      - pose proof H as H'.
        apply post_phase_col with (l := l) in H; cbn [wb] in *.
        + destruct H as (N & CC & _). destruct (CC eq_refl) as [e CE]. eexists. split; [exact CE|].
          rewrite !app_length, repeat_length. cbn [length]. rewrite N. rewrite append_n_rows, U. lia.
        + rewrite append_col. congruence.
        + rewrite append_n_rows, U. lia.
    Qed.

    Lemma loop_short : forall fuel n w w' r, evolve_loop pr fuel n w = Some (w', r) ->
      column_short c (wb w) -> column_short c (wb w').
    Proof.
      induction fuel as [|fuel IH]; intros n w w' r H S; [discriminate|].
      cbn [evolve_loop] in H. destruct (terminal pr (wb w)); [inversion H; subst; assumption|].
      destruct (run_step pr (set_alarm w MAXIMUM_STEP_TIME)) as [w1 r1] eqn:E.
      apply run_step_short in E; [|exact S].
      destruct r1; [inversion H; subst; assumption|].
      destruct (p_max_n pr) as [m|]; [destruct (n + 1 >? m)%Z; [inversion H; subst; assumption|]|]; eauto.
    Qed.
    Lemma fits_short : forall b, column_fits c b -> column_short c b.
    Proof. intros b (l & A & B). exists l. split; [assumption|lia]. Qed.
    Lemma loop_fits : forall fuel n w w', evolve_loop pr fuel n w = Some (w', None) ->
      (forall s f, p_step pr s = Some f -> tidy_redirects f) ->
      column_fits c (wb w) -> column_fits c (wb w').
    Proof.
      induction fuel as [|fuel IH]; intros n w w' H TR S; [discriminate|].
      cbn [evolve_loop] in H. destruct (terminal pr (wb w)); [inversion H; subst; assumption|].
      destruct (run_step pr (set_alarm w MAXIMUM_STEP_TIME)) as [w1 r1] eqn:E.
      destruct r1; [discriminate|].
      apply run_step_fits in E; [|apply fits_short; exact S|exact S|exact TR].
      destruct (p_max_n pr) as [m|]; [destruct (n + 1 >? m)%Z; [discriminate|]|]; eauto.
    Qed.

    (** The pre-evolve phase creates a missing column. *)
    Definition start (b : binary) : option (list val) :=
      match cols (bc b) c with Some l => Some l | None => Some [init] end.
    Lemma pre_evolve_col : forall w w', call_all (pre_evolve_calls pr) w = (w', None) ->
      cols (bc (wb w')) c = start (wb w) /\ n_rows (wb w') = n_rows (wb w).
    Proof.
      intros w w' H. destruct ST as (_ & HO & HX & _).
      destruct (phase_split _ PreEvolve h_pre_evolve (p_extra_pre_evolve pr) (neutral c))
        as (h & r1 & r2 & E & HC & N & P).
      - intros j h J E. apply (HO j h J E).
      - intros a HA. apply HX. exact HA.
      - unfold pre_evolve_calls in H. rewrite N, call_all_app in H.
        destruct (call_all r1 w) as [w1 [e|]] eqn:E1; [discriminate|].
        apply call_all_neutral with (c := c) in E1; [|intros x a HI; apply (P x a); auto].
        destruct E1 as [A1 B1]. cbn [call_all] in H. unfold call in H.
        destruct HC as (HP & _). rewrite HP in H.
        apply call_all_neutral with (c := c) in H; [|intros x a HI; apply (P x a); auto].
        destruct H as [A2 B2]. cbn [wb] in A2, B2. unfold start. rewrite <- A1.
        unfold col_pre_evolve in A2, B2. destruct (cols (bc (wb w1)) c) as [l|] eqn:C.
        + split; congruence.
        + cbn [bc with_bc cols set_col] in A2. rewrite upd_same in A2. split; [assumption|].
          rewrite B2. exact B1.
    Qed.

    Lemma post_evolve_col : forall w w' r, call_all (post_evolve_calls pr) w = (w', r) ->
      n_rows (wb w') = n_rows (wb w)
      /\ (column_fits c (wb w) -> r = None -> column_fits c (wb w'))
      /\ (column_short c (wb w) -> column_short c (wb w'))
      /\ (column_short c (wb w) -> r = None ->
           b_event (wb w') = VStr "END" \/ b_event (wb w') = VStr "FAILED" -> column_fits c (wb w'))
      /\ (forall l, cols (bc (wb w)) c = Some l -> length l = n_rows (wb w) -> r = None ->
            cols (bc (wb w')) c = Some l).
    Proof.
      intros w w' r H. destruct ST as (_ & HO & _ & HX & _).
      destruct (phase_split _ PostEvolve h_post_evolve (p_extra_post_evolve pr)
                  (fun a => neutral c a /\ keeps_event a))
        as (h & r1 & r2 & E & HC & N & P).
      - intros j h J E. apply (HO j h J E).
      - intros a HA. apply HX. exact HA.
      - unfold post_evolve_calls in H. rewrite N, call_all_app in H.
        assert (KE : forall l w w' r, (forall x a, In (x, a) l -> neutral c a /\ keeps_event a) ->
          call_all l w = (w', r) -> b_event (wb w') = b_event (wb w)).
        { clear. induction l as [|[x a] l IH]; intros w w' r K H; cbn [call_all] in H; [inversion H; reflexivity|].
          unfold call in H. destruct (a (wb w) (we w)) as [[b e] o] eqn:E.
          destruct (K x a (or_introl eq_refl)) as [_ KA]. apply KA in E.
          destruct o; [inversion H; subst; exact E|].
          apply IH in H; [cbn [wb] in H; congruence|]. intros y z I. apply (K y z). right. exact I. }
        destruct (call_all r1 w) as [w1 o1] eqn:E1.
        assert (NE1 : b_event (wb w1) = b_event (wb w)) by (eapply KE; [|exact E1]; intros x a HI; apply (P x a); auto).
        apply call_all_neutral with (c := c) in E1; [|intros x a HI; apply (P x a); auto].
        destruct E1 as [A1 B1].
        destruct o1 as [e1|].
        { inversion H; subst. split; [assumption|]. split; [discriminate|]. split; [|split; discriminate].
          intros (l & C & L). exists l. rewrite A1, B1. auto. }
        cbn [call_all] in H. unfold call in H.
        destruct HC as (_ & _ & _ & HP). rewrite HP in H. unfold lift in H.
        destruct (col_post_evolve c (wb w1)) as [b2|] eqn:CP.
        2:{ inversion H; subst. cbn [wb]. split; [assumption|]. split; [discriminate|]. split; [|split; discriminate].
            intros (l & C & L). exists l. rewrite A1, B1. auto. }
        assert (F : (cols (bc b2) c = cols (bc (wb w1)) c /\ n_rows b2 = n_rows (wb w1)
                     /\ ~ (b_event b2 = VStr "END" \/ b_event b2 = VStr "FAILED"))
                 \/ (exists l, cols (bc (wb w1)) c = Some l /\
                      cols (bc b2) c = Some (l ++ repeat VNone (n_rows (wb w1) - length l))
                      /\ n_rows b2 = n_rows (wb w1))).
        { unfold col_post_evolve, val_eqb in CP.
          destruct (val_eq_dec (b_event (wb w1)) (VStr "END")) as [EV|EV];
          [|destruct (val_eq_dec (b_event (wb w1)) (VStr "FAILED")) as [EV2|EV2]]; cbn [orb] in CP.
          - right. destruct (cols (bc (wb w1)) c) as [l|] eqn:C; [|discriminate]. exists l.
            inversion CP; subst. cbn [bc with_bc cols set_col]. rewrite upd_same.
            split; [reflexivity|]. split; [|reflexivity]. do 3 f_equal. fold (n_rows (wb w1)). lia.
          - right. destruct (cols (bc (wb w1)) c) as [l|] eqn:C; [|discriminate]. exists l.
            inversion CP; subst. cbn [bc with_bc cols set_col]. rewrite upd_same.
            split; [reflexivity|]. split; [|reflexivity]. do 3 f_equal. fold (n_rows (wb w1)). lia.
          - left. inversion CP; subst. split; [reflexivity|]. split; [reflexivity|]. tauto. }
        assert (EV3 : b_event (wb w') = b_event b2).
        { apply KE in H; [|intros x a HI; apply (P x a); auto]. exact H. }
        apply call_all_neutral with (c := c) in H; [|intros x a HI; apply (P x a); auto].
        destruct H as [A3 B3]. cbn [wb] in A3, B3.
        destruct F as [(F1 & F2 & F3)|(l & F1 & F2 & F3)].
        + split; [congruence|]. split; [|split; [|split]].
          * intros (l & C & L) _. exists l. split; [congruence|]. congruence.
          * intros (l & C & L). exists l. split; [congruence|]. lia.
          * intros _ _ EE. exfalso. apply F3. rewrite <- EV3. exact EE.
          * intros l C L _. congruence.
        + assert (C0 : cols (bc (wb w)) c = Some l) by congruence.
          split; [congruence|]. split; [|split; [|split]].
          * intros (l' & C & L) _. rewrite C0 in C. inversion C; subst l'.
            eexists. split; [rewrite A3, F2; reflexivity|]. rewrite app_length, repeat_length. lia.
          * intros (l' & C & L). rewrite C0 in C. inversion C; subst l'.
            eexists. split; [rewrite A3, F2; reflexivity|]. rewrite app_length, repeat_length. lia.
          * intros (l' & C & L) _ _. rewrite C0 in C. inversion C; subst l'.
            eexists. split; [rewrite A3, F2; reflexivity|]. rewrite app_length, repeat_length. lia.
          * intros l' C L _. rewrite C0 in C. inversion C; subst l'. rewrite A3, F2.
            replace (n_rows (wb w1) - length l) with 0 by lia. cbn [repeat]. rewrite app_nil_r. reflexivity.
    Qed.

    Lemma evolve_short : forall fuel w w',
      (cols (bc (wb w)) c = None /\ 1 <= n_rows (wb w)) \/ column_short c (wb w) ->
      evolve pr fuel w = Some (w', None) ->
      column_short c (wb w')
      /\ (b_event (wb w') = VStr "END" \/ b_event (wb w') = VStr "FAILED" -> column_fits c (wb w')).
    Proof.
      intros fuel w w' S H. unfold evolve in H.
      destruct (call_all (pre_evolve_calls pr) w) as [w1 [e|]] eqn:E1; [discriminate|].
      apply pre_evolve_col in E1 as [A1 B1].
      assert (S1 : column_short c (wb w1)).
      { destruct S as [[C L]|(l & C & L)]; unfold start in A1; rewrite C in A1.
        - exists [init]. split; [assumption|]. cbn [length]. lia.
        - exists l. split; [assumption|lia]. }
      destruct (birth_check pr (wb w1)); [discriminate|].
      destruct (evolve_loop pr fuel 0 w1) as [[w2 [e|]]|] eqn:E2; try discriminate.
      apply loop_short in E2; [|exact S1]. injection H as H.
      apply post_evolve_col in H as (_ & _ & P3 & P4 & _). cbn [wb set_alarm] in *. split; auto.
    Qed.

    Lemma evolve_fits : forall fuel w w',
      (forall s f, p_step pr s = Some f -> tidy_redirects f) ->
      (cols (bc (wb w)) c = None /\ n_rows (wb w) = 1) \/ column_fits c (wb w) ->
      evolve pr fuel w = Some (w', None) -> column_fits c (wb w').
    Proof.
      intros fuel w w' TR S H. unfold evolve in H.
      destruct (call_all (pre_evolve_calls pr) w) as [w1 [e|]] eqn:E1; [discriminate|].
      apply pre_evolve_col in E1 as [A1 B1].
      assert (S1 : column_fits c (wb w1)).
      { destruct S as [[C L]|(l & C & L)]; unfold start in A1; rewrite C in A1.
        - exists [init]. split; [assumption|]. cbn [length]. lia.
        - exists l. split; [assumption|lia]. }
      destruct (birth_check pr (wb w1)); [discriminate|].
      destruct (evolve_loop pr fuel 0 w1) as [[w2 [e|]]|] eqn:E2; try discriminate.
      apply loop_fits in E2; [|exact TR|exact S1]. injection H as H.
      apply post_evolve_col in H as (_ & P2 & _). cbn [wb set_alarm] in *. auto.
    Qed.
  End Setup.

  (** ** Contents of the step-name column *)
  Section Names.
    Variables (pr : properties Ext) (k : nat).
    Let c := "step_names".
    Hypothesis ST : column_setup pr k c (VStr "initial_cond") (fun s _ => step_val s).
    Hypothesis STEPS : forall s f, p_step pr s = Some f -> neutral c f.

    Lemma steps_extending : forall s f, p_step pr s = Some f -> extending c f.
    Proof. intros s f F b e b' e' r H. destruct (STEPS s f F _ _ _ _ _ H) as [A B]. split; [assumption|lia]. Qed.

    Lemma run_step_names : forall w w' l, cols (bc (wb w)) c = Some l -> length l = n_rows (wb w) ->
      run_step pr w = (w', None) ->
      exists new, wlog w' = wlog w ++ new
        /\ cols (bc (wb w')) c = Some (l ++ map step_val (posted k new))
        /\ n_rows (wb w') = n_rows (wb w) + length (posted k new).
    Proof.
      intros w w' l C L H. unfold run_step in H.
      destruct (inb key_eqb _ UNDEFINED_STATES); [discriminate|].
      destruct (p_flow pr (total_state (wb w))) as [s|]; [|discriminate].
      destruct (p_step pr s) as [f|] eqn:F; [|discriminate].
      destruct (call_all (pre_step_calls pr s) _) as [w1 r1] eqn:E1.
      pose proof E1 as E1'. apply call_all_log in E1' as (n1 & L1 & _ & R1). cbn [wlog log] in L1.
      apply call_all_neutral with (c := c) in E1; [|eapply pre_step_neutral; exact ST]. destruct E1 as [A1 B1].
      cbn [wb log] in A1, B1. destruct r1; [discriminate|]. rewrite pre_step_fst in R1.
      unfold call in H. destruct (f (wb w1) (we w1)) as [[b2 e2] o] eqn:E2.
      destruct (STEPS s f F _ _ _ _ _ E2) as [A2 B2].
      destruct o; [discriminate|].
      unfold post_step, log in H. cbn [wb we walarm wlog] in H. rewrite append_state_unrec in H.
      assert (PN : posted k n1 = []).
      { rewrite R1. apply posted_none. intros j s' HI. unfold all_ok, pre_steps in HI. rewrite map_map in HI.
        apply in_map_iff in HI as (x & HE & _). discriminate. }
      destruct (unrecorded b2) eqn:U.
      - inversion H; subst w'. cbn [wb wlog].
        exists ([EChoose (total_state (wb w)) s] ++ n1 ++ [ECall (Step s) None] ++ [EDone (verbose b2) (b_event b2)]).
        rewrite L1, <- !app_assoc. split; [reflexivity|].
        rewrite !posted_app, PN. cbn [posted app map]. rewrite app_nil_r.
        rewrite append_col, append_n_rows, U. split; [congruence|cbn [length]; lia].
      - destruct (post_phase pr k c _ _ ST s) as (h & r1 & r2 & HC & E & N1 & N2 & P1 & P2).
        pose proof H as H'. apply call_all_log in H' as (n3 & L3 & _ & R3). cbn [wlog] in L3.
        rewrite E, map_app in R3. cbn [map fst] in R3. rewrite all_ok_app in R3.
        assert (PN3 : posted k n3 = [s]).
        { rewrite R3, posted_app, P1. cbn [all_ok map posted app]. rewrite Nat.eqb_refl.
          unfold all_ok in P2. rewrite P2. reflexivity. }
        apply post_phase_col with (l := l) (1 := ST) in H; cbn [wb] in *.
        + destruct H as (N & CC & _). destruct (CC eq_refl) as [e CE].
          rewrite append_n_rows, U in N, CE.
          exists ([EChoose (total_state (wb w)) s] ++ n1 ++ [ECall (Step s) None] ++ [EDone (verbose b2) (b_event b2)] ++ n3).
          rewrite L3, L1, <- !app_assoc. split; [reflexivity|].
          rewrite !posted_app, PN, PN3. cbn [posted app map length].
          split; [|rewrite N; lia].
          rewrite CE. do 2 f_equal. replace (S (n_rows b2) - length l - 1) with 0 by lia. reflexivity.
        + rewrite append_col. congruence.
        + rewrite append_n_rows, U. lia.
    Qed.

    Lemma loop_names : forall fuel n w w' l, cols (bc (wb w)) c = Some l -> length l = n_rows (wb w) ->
      evolve_loop pr fuel n w = Some (w', None) ->
      exists new, wlog w' = wlog w ++ new
        /\ cols (bc (wb w')) c = Some (l ++ map step_val (posted k new))
        /\ n_rows (wb w') = n_rows (wb w) + length (posted k new).
    Proof.
      induction fuel as [|fuel IH]; intros n w w' l C L H; [discriminate|].
      cbn [evolve_loop] in H. destruct (terminal pr (wb w)).
      { inversion H; subst. exists []. cbn [posted map length]. rewrite !app_nil_r, Nat.add_0_r. auto. }
      destruct (run_step pr (set_alarm w MAXIMUM_STEP_TIME)) as [w1 r1] eqn:E.
      destruct r1; [discriminate|].
      destruct (run_step_names (set_alarm w MAXIMUM_STEP_TIME) w1 l C L E) as (n1 & L1 & C1 & N1). cbn [wb wlog set_alarm] in *.
      assert (H' : evolve_loop pr fuel (n + 1) w1 = Some (w', None)).
      { destruct (p_max_n pr) as [m|]; [destruct (n + 1 >? m)%Z; [discriminate|]|]; assumption. }
      destruct (IH (n + 1)%Z w1 w' _ C1) as (n2 & L2 & C2 & N2); [|exact H'|].
      { rewrite app_length, map_length, N1. lia. }
      exists ([EAlarm MAXIMUM_STEP_TIME] ++ n1 ++ n2). rewrite L2, L1, <- !app_assoc. split; [reflexivity|].
      rewrite !posted_app. cbn [posted app]. rewrite map_app, app_assoc. split; [assumption|].
      rewrite app_length. lia.
    Qed.

    Lemma evolve_names : forall fuel w w' l,
      start c (VStr "initial_cond") (wb w) = Some l -> length l = n_rows (wb w) ->
      evolve pr fuel w = Some (w', None) ->
      exists new, wlog w' = wlog w ++ new
        /\ cols (bc (wb w')) c = Some (l ++ map step_val (posted k new))
        /\ n_rows (wb w') = n_rows (wb w) + length (posted k new).
    Proof.
      intros fuel w w' l C L H. unfold evolve in H.
      destruct (call_all (pre_evolve_calls pr) w) as [w1 [e|]] eqn:E1; [discriminate|].
      pose proof E1 as E1'. apply call_all_log in E1' as (n1 & L1 & _ & R1). rewrite pre_evolve_fst in R1.
      apply (pre_evolve_col pr k c _ _ ST) in E1 as [A1 B1]. rewrite C in A1.
      destruct (birth_check pr (wb w1)); [discriminate|].
      destruct (evolve_loop pr fuel 0 w1) as [[w2 [e|]]|] eqn:E2; try discriminate.
      apply loop_names with (l := l) in E2; [|assumption|lia].
      destruct E2 as (n2 & L2 & C2 & N2). injection H as H.
      pose proof H as H'. apply call_all_log in H' as (n3 & L3 & _ & R3). rewrite post_evolve_fst in R3.
      cbn [wlog set_alarm] in L3.
      apply (post_evolve_col pr k c _ _ ST) in H as (P1 & _ & _ & _ & P5). cbn [wb set_alarm] in *.
      exists (n1 ++ n2 ++ [EAlarm 0] ++ n3). rewrite L3, L2, L1, <- !app_assoc. split; [reflexivity|].
      assert (Q1 : posted k n1 = []).
      { rewrite R1. apply posted_none. intros j s HI. unfold all_ok, pre_evolves in HI. rewrite map_map in HI.
        apply in_map_iff in HI as (x & HE & _). discriminate. }
      assert (Q3 : posted k n3 = []).
      { rewrite R3. apply posted_none. intros j s HI. unfold all_ok, post_evolves in HI. rewrite map_map in HI.
        apply in_map_iff in HI as (x & HE & _). discriminate. }
      rewrite !posted_app, Q1, Q3. cbn [posted app]. rewrite app_nil_r.
      split; [|lia]. rewrite (P5 _ C2); [reflexivity| |reflexivity].
      rewrite app_length, map_length. lia.
    Qed.
  End Names.

  (** ** restore *)
  Lemma restore_cols_nonneg : forall names i c0 c' q, restore_cols names (Z.of_nat i) c0 = (c', None) ->
    hist c' = hist c0 /\
    forall l, cols c0 q = Some l -> cols c' q = Some (if in_dec string_dec q names then firstn (S i) l else l).
  Proof.
    induction names as [|p ps IH]; intros i c0 c' q H; cbn [restore_cols] in H.
    - inversion H; subst. split; [reflexivity|]. intros l E. cbn. assumption.
    - destruct (cols c0 p) as [lp|] eqn:P; [|discriminate].
      replace (Z.of_nat i + 1)%Z with (Z.of_nat (S i)) in H by lia. rewrite py_prefix_nonneg in H.
      apply IH with (q := q) in H as [HH HC]. split; [exact HH|].
      intros l E. cbn [cols set_col] in HC. unfold upd in HC.
      destruct (String.eqb_spec q p) as [->|NE].
      + assert (l = lp) by congruence. subst. rewrite (HC _ eq_refl).
        destruct (in_dec string_dec p (p :: ps)) as [_|N]; [|exfalso; apply N; left; reflexivity].
        destruct (in_dec string_dec p ps); [|reflexivity]. rewrite firstn_firstn, Nat.min_id. reflexivity.
      + rewrite (HC _ E). destruct (in_dec string_dec q ps), (in_dec string_dec q (p :: ps)); try reflexivity.
        * exfalso; apply n; right; assumption.
        * exfalso. destruct i0 as [->|I]; [apply NE; reflexivity|contradiction].
  Qed.

  Lemma restore_comp_cols_nonneg : forall props names i c0 c' q l,
    restore_comp props names (Z.of_nat i) c0 = (c', None) -> In q names -> cols c0 q = Some l ->
    cols c' q = Some (firstn (S i) l).
  Proof.
    intros props names i c0 c' q l H HI C. unfold restore_comp in H.
    destruct (restore_props props (Z.of_nat i) c0) as [c1 [e|]] eqn:E1; [discriminate|].
    pose proof (restore_props_cols _ _ _ _ _ E1) as RC.
    apply restore_cols_nonneg with (q := q) in H as [_ HC]. rewrite (HC l) by congruence.
    destruct (in_dec string_dec q names) as [_|N]; [reflexivity|contradiction].
  Qed.
  Strategy opaque [restore_comp].
  Lemma restore_fits : forall pr n i b b' c h, rows n b -> i < n -> cols_present pr b ->
    In h (p_hooks pr) -> In c (h_binary_cols h) ->
    restore pr (Z.of_nat i) b = (b', None) -> column_fits c b -> column_fits c b'.
  Proof.
    intros pr n i b b' c h R L CP Hh Hc H (l & C & LL).
    destruct (restore_nonneg pr n i b R L CP) as (b2 & E & _ & (K & _ & _) & _).
    rewrite H in E. assert (b2 = b') by congruence. subst b2.
    assert (KE : hist (bc b') "event" = firstn (S i) (hist (bc b) "event")) by (apply K; right; left; reflexivity).
    assert (CC : cols (bc b') c = Some (firstn (S i) l)).
    { unfold restore in H. cbv zeta in H.
      destruct (restore_comp BINARYPROPERTIES (flat_map h_binary_cols (p_hooks pr)) (Z.of_nat i) (bc b)) as [c0 [e|]] eqn:E0; [discriminate|].
      assert (EB : bc b' = c0).
      { destruct (restore_comp STARPROPERTIES _ _ (st1 (with_bc b c0))) as [x [e|]]; [discriminate|].
        destruct (restore_comp STARPROPERTIES _ _ (st2 _)) as [y ry].
        apply (f_equal fst) in H. cbn [fst] in H. rewrite <- H. reflexivity. }
      rewrite EB. eapply restore_comp_cols_nonneg; [exact E0| |exact C].
      apply in_flat_map. eauto. }
    exists (firstn (S i) l). split; [exact CC|]. unfold n_rows in *. rewrite KE, !firstn_length, LL. reflexivity.
  Qed.

  Strategy transparent [restore_comp].

  (** The two built-in hooks are column hooks. *)
  Lemma timing_is_column_hook : forall duration tick,
    column_hook "step_times" (VNum 0) (fun _ e => duration e) (TimingHooks Ext duration tick).
  Proof.
    intros duration tick. split; [reflexivity|]. split; [|split; reflexivity].
    intros s b e b' e' r H. inversion H; subst. auto.
  Qed.
  Lemma names_is_column_hook :
    column_hook "step_names" (VStr "initial_cond") (fun s _ => step_val s) (StepNamesHooks Ext).
  Proof.
    split; [reflexivity|]. split; [|split; reflexivity].
    intros s b e b' e' r H. inversion H; subst. auto.
  Qed.
End H.
