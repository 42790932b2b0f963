(** Proofs about the evolution loop: call logs, step limits, alarm. *)
From Coq Require Import String List Bool ZArith Lia.
From Verif Require Import PyBase FlowChartModel BinaryModel BinarySpec.
Import ListNotations.
Open Scope list_scope.

Section P.
  Context {Ext : Type}.
  Implicit Types (pr : properties Ext) (w : world Ext).

  Lemma all_ok_app : forall a b, all_ok (a ++ b) = all_ok a ++ all_ok b.
  Proof. intros. apply map_app. Qed.

  Lemma stops_at_app_l : forall a b l e, stops_at a l e -> stops_at (a ++ b) l e.
  Proof.
    intros a b l e (x & c & y & -> & ->). exists x, c, (y ++ b). split; [|reflexivity].
    rewrite <- app_assoc. reflexivity.
  Qed.
  Lemma stops_at_app_r : forall a b l e, stops_at b l e -> stops_at (a ++ b) (all_ok a ++ l) e.
  Proof.
    intros a b l e (x & c & y & -> & ->). exists (a ++ x), c, y. split.
    - rewrite <- app_assoc. reflexivity.
    - rewrite all_ok_app, <- app_assoc. reflexivity.
  Qed.
  Lemma stops_at_cons : forall c cs e, stops_at (c :: cs) [ECall c (Some e)] e.
  Proof. intros. exists [], c, cs. split; reflexivity. Qed.

  Lemma call_all_log : forall l w w' r,
    call_all l w = (w', r) ->
    exists new, wlog w' = wlog w ++ new /\ walarm w' = walarm w /\
      match r with
      | None => new = all_ok (map fst l)
      | Some e => stops_at (map fst l) new e
      end.
  Proof.
    induction l as [|[c a] l IH]; intros w w' r H; cbn [call_all map fst] in *.
    - inversion H; subst. exists []. rewrite app_nil_r. repeat split.
    - unfold call in H. destruct (a (wb w) (we w)) as [[b e] o] eqn:E. destruct o as [ex|].
      + inversion H; subst. cbn. eexists. split; [reflexivity|]. split; [reflexivity|].
        apply stops_at_cons.
      + apply IH in H as (new & L & A & R). cbn in L, A.
        exists (ECall c None :: new). split; [rewrite L, <- app_assoc; reflexivity|].
        split; [assumption|]. destruct r as [ex|].
        * apply (stops_at_app_r [c] (map fst l)) in R. exact R.
        * subst new. reflexivity.
  Qed.

  Lemma combine_seq_fst : forall A (l : list A) k (B : Type) (f : hook_id -> B),
    map (fun nx => f (HookNo (fst nx))) (combine (seq k (length l)) l)
    = map f (map HookNo (seq k (length l))).
  Proof.
    induction l as [|x l IH]; intros k B f; [reflexivity|].
    cbn [length seq combine map fst]. rewrite IH. reflexivity.
  Qed.

  Lemma number_fst : forall A B (f : hook_id -> B) (g : A -> actor Ext) l,
    map fst (number f g l) = map f (map HookNo (seq 0 (length l))).
  Proof. intros. unfold number. rewrite map_map. cbn [fst]. apply combine_seq_fst. Qed.

  Lemma extra_fst : forall B (f : hook_id -> B) (o : option (actor Ext)),
    map fst (extra f o) = map f (if present o then [ExtraFn] else []).
  Proof. intros B f [a|]; reflexivity. Qed.

  Lemma present_map : forall A B (f : A -> B) o, present (option_map f o) = present o.
  Proof. intros A B f [a|]; reflexivity. Qed.

  Lemma pre_evolve_fst : forall pr, map fst (pre_evolve_calls pr) = pre_evolves pr.
  Proof.
    intros. unfold pre_evolve_calls, pre_evolves, ids. rewrite map_app, number_fst, extra_fst, map_app.
    reflexivity.
  Qed.
  Lemma post_evolve_fst : forall pr, map fst (post_evolve_calls pr) = post_evolves pr.
  Proof.
    intros. unfold post_evolve_calls, post_evolves, ids. rewrite map_app, number_fst, extra_fst, map_app.
    reflexivity.
  Qed.
  Lemma pre_step_fst : forall pr s, map fst (pre_step_calls pr s) = pre_steps pr s.
  Proof.
    intros. unfold pre_step_calls, pre_steps, ids. rewrite map_app, number_fst, extra_fst, map_app, present_map.
    reflexivity.
  Qed.
  Lemma post_step_fst : forall pr s, map fst (post_step_calls pr s) = post_steps pr s.
  Proof.
    intros. unfold post_step_calls, post_steps, ids. rewrite map_app, number_fst, extra_fst, map_app, present_map.
    reflexivity.
  Qed.

  Lemma prefix_iff : forall a b, prefix a b = true <-> exists c, b = (a ++ c)%string.
  Proof.
    induction a as [|x a IH]; intro b.
    - split; [intros _; exists b; reflexivity|destruct b; reflexivity].
    - destruct b as [|y b]; [split; [discriminate|intros [c H]; discriminate]|].
      change (prefix (String x a) (String y b)) with (if Ascii.ascii_dec x y then prefix a b else false).
      destruct (Ascii.ascii_dec x y) as [E|N].
      + subst y. split.
        * intro H. apply IH in H as [c H]. exists c. rewrite H. reflexivity.
        * intros [c H]. apply IH. exists c. cbn in H. congruence.
      + split; [discriminate|]. intros [c H]. cbn in H. congruence.
  Qed.
  Lemma contains_iff : forall p s, contains p s = true <-> exists a b, s = (a ++ p ++ b)%string.
  Proof.
    intro p. induction s as [|x s IH].
    - cbn [contains]. rewrite orb_true_iff, prefix_iff. split.
      + intros [[c H]|H]; [|discriminate]. exists EmptyString, c. exact H.
      + intros (a & b & H). left. exists b. destruct a; [exact H|discriminate].
    - cbn [contains]. rewrite orb_true_iff, prefix_iff, IH. split.
      + intros [[c H]|(a & b & H)]; [exists EmptyString, c; exact H|].
        exists (String x a), b. rewrite H. reflexivity.
      + intros (a & b & H). destruct a as [|y a]; [left; exists b; exact H|].
        right. exists a, b. cbn in H. congruence.
  Qed.
  Lemma redirecting_iff : forall v, redirecting v = true <-> is_redirect v.
  Proof.
    intros [|s|z|n]; cbn; unfold is_redirect; try (split; [discriminate|intros (a & b & H); discriminate]).
    rewrite contains_iff. split; intros (a & b & H); exists a, b; congruence.
  Qed.
  Lemma unrecorded_iff : forall b, unrecorded b = true <-> hidden (verbose b) (b_event b).
  Proof.
    intro b. unfold unrecorded, hidden. rewrite andb_true_iff, redirecting_iff.
    destruct (verbose b); cbn; intuition discriminate.
  Qed.
  Lemma append_state_unrec : forall b,
    unrecorded (append_state b) = unrecorded b.
  Proof.
    intro b. unfold append_state. destruct (unrecorded b) eqn:U; [assumption|].
    unfold unrecorded, b_event in *. cbn [verbose bc].
    assert (E : forall props c, cur (append_comp props c) = cur c).
    { unfold append_comp. induction props as [|p ps IH]; intro c; [reflexivity|].
      cbn [fold_left]. rewrite IH. reflexivity. }
    rewrite E. assumption.
  Qed.

  Lemma run_step_log : forall pr w w' r,
    run_step pr w = (w', r) ->
    exists new, wlog w' = wlog w ++ new /\ walarm w' = walarm w /\
      match r with
      | None => exists b, bl_key b = total_state (wb w) /\ chosen pr (bl_key b) (bl_step b)
          /\ block_log pr b (EAlarm 120 :: new)
      | Some e => broken_step pr new e
      end.
  Proof.
    intros pr w w' r H. unfold run_step in H. set (k := total_state (wb w)) in *.
    destruct (inb_spec key_eqb_spec k UNDEFINED_STATES) as [U|U].
    { inversion H; subst. exists []. rewrite app_nil_r. repeat split. constructor. auto. }
    destruct (p_flow pr k) as [s|] eqn:F.
    2:{ inversion H; subst. exists []. rewrite app_nil_r. repeat split. constructor. auto. }
    destruct (p_step pr s) as [f|] eqn:S.
    2:{ inversion H; subst. exists []. rewrite app_nil_r. repeat split. constructor. auto. }
    assert (C : chosen pr k s) by (split; [exact U|split; congruence]).
    destruct (call_all (pre_step_calls pr s) (log w (EChoose k s))) as [w1 r1] eqn:E1.
    apply call_all_log in E1 as (n1 & L1 & A1 & R1). cbn in L1, A1. rewrite pre_step_fst in R1.
    destruct r1 as [e1|].
    { inversion H; subst. exists (EChoose k s :: n1). rewrite L1, <- app_assoc.
      repeat split; [assumption|]. apply broken_before; [exact C|].
      apply stops_at_app_l. assumption. }
    subst n1. unfold call in H. destruct (f (wb w1) (we w1)) as [[b2 e2] o] eqn:E2.
    destruct o as [ex|].
    { inversion H; subst. cbn. exists (EChoose k s :: all_ok (pre_steps pr s) ++ [ECall (Step s) (Some ex)]).
      rewrite L1, <- !app_assoc. cbn [app]. repeat split; [assumption|].
      apply broken_before; [exact C|]. unfold up_to_step. apply stops_at_app_r. apply stops_at_cons. }
    cbn [wb we walarm wlog] in H. unfold post_step, log in H. cbn [wb we walarm wlog] in H.
    rewrite append_state_unrec in H.
    destruct (unrecorded b2) eqn:U2.
    { inversion H; subst. cbn [wlog walarm].
      exists (EChoose k s :: all_ok (up_to_step pr s) ++ [EDone (verbose b2) (b_event b2)]).
      split; [|split; [assumption|exists (Block k s (verbose b2) (b_event b2))]].
      - rewrite L1. unfold up_to_step. rewrite all_ok_app, <- !app_assoc. reflexivity.
      - split; [reflexivity|]. split; [exact C|].
        apply (block_hidden pr (Block k s (verbose b2) (b_event b2))). apply unrecorded_iff. assumption. }
    assert (NH : ~ hidden (verbose b2) (b_event b2)) by (rewrite <- unrecorded_iff; congruence).
    apply call_all_log in H as (n3 & L3 & A3 & R3). cbn [wlog walarm] in L3, A3. rewrite post_step_fst in R3.
    exists (EChoose k s :: all_ok (up_to_step pr s) ++ [EDone (verbose b2) (b_event b2)] ++ n3).
    split; [rewrite L3, L1; unfold up_to_step; rewrite all_ok_app, <- !app_assoc; reflexivity|].
    split; [congruence|].
    destruct r as [e|].
    - apply broken_after; assumption.
    - subst n3. exists (Block k s (verbose b2) (b_event b2)). split; [reflexivity|]. split; [exact C|].
      apply (block_shown pr (Block k s (verbose b2) (b_event b2))). assumption.
  Qed.

  Lemma loop_log : forall pr fuel n w w' r,
    evolve_loop pr fuel n w = Some (w', r) ->
    exists bs ls tail, blocks_log pr bs ls /\ wlog w' = wlog w ++ ls ++ tail /\
      match r with
      | None => tail = [] /\ terminal pr (wb w') = true /\
          (forall m, p_max_n pr = Some m -> bs = [] \/ (n + Z.of_nat (length bs) <= m)%Z)
      | Some e =>
          (exists l, tail = EAlarm 120 :: l /\ broken_step pr l e /\
             (forall m, p_max_n pr = Some m -> bs = [] \/ (n + Z.of_nat (length bs) <= m)%Z))
          \/ (tail = [] /\ e = RuntimeError /\ bs <> [] /\
              exists m, p_max_n pr = Some m /\ (n + Z.of_nat (length bs) > m)%Z
                /\ (length bs = 1%nat \/ (n + Z.of_nat (length bs) = m + 1)%Z))
      end.
  Proof.
    intros pr fuel. induction fuel as [|fuel IH]; intros n w w' r H; [discriminate|].
    cbn [evolve_loop] in H. destruct (terminal pr (wb w)) eqn:T.
    { inversion H; subst. exists [], [], []. cbn. rewrite app_nil_r. repeat split; auto. constructor. }
    destruct (run_step pr (set_alarm w MAXIMUM_STEP_TIME)) as [w1 r1] eqn:E.
    apply run_step_log in E as (n1 & L1 & A1 & R1). cbn in L1.
    destruct r1 as [e1|].
    { inversion H; subst. exists [], [], (EAlarm 120 :: n1). cbn. rewrite L1, <- app_assoc.
      repeat split; [constructor|]. left. exists n1. repeat split; auto. }
    destruct R1 as (b0 & K0 & C & BL).
    assert (B0 : wlog w1 = wlog w ++ EAlarm 120 :: n1) by (rewrite L1, <- app_assoc; reflexivity).
    assert (Step_ok : (exists m, p_max_n pr = Some m /\ (n + 1 > m)%Z /\ w' = w1 /\ r = Some RuntimeError)
             \/ (evolve_loop pr fuel (n + 1) w1 = Some (w', r)
                 /\ forall m, p_max_n pr = Some m -> (n + 1 <= m)%Z)).
    { destruct (p_max_n pr) as [m|].
      - destruct (n + 1 >? m)%Z eqn:G.
        + left. exists m. inversion H; subst. apply Z.gtb_lt in G. repeat split. lia.
        + right. split; [assumption|]. intros m' Hm. inversion Hm; subst.
          rewrite Z.gtb_ltb in G. apply Z.ltb_ge in G. assumption.
      - right. split; [assumption|]. discriminate. }
    destruct Step_ok as [(m & Hm & G & -> & ->)|[H' G]].
    { exists [b0], ((EAlarm 120 :: n1) ++ []), []. rewrite !app_nil_r.
      split; [rewrite <- (app_nil_r (EAlarm 120 :: n1)); constructor; [exact C|exact BL|constructor]|]. split; [exact B0|].
      right. repeat split; [discriminate|]. exists m. cbn. repeat split; [assumption|lia|auto]. }
    apply IH in H' as (bs & ls & tail & Hb & L & R).
    exists (b0 :: bs), ((EAlarm 120 :: n1) ++ ls), tail. split; [constructor; assumption|].
    split; [rewrite L, B0, <- !app_assoc; reflexivity|].
    assert (Len : Z.of_nat (length (b0 :: bs)) = (1 + Z.of_nat (length bs))%Z) by (cbn [length]; lia).
    destruct r as [e|].
    - destruct R as [(l & -> & Br & M)|(-> & -> & Ne & m & Hm & G2 & G3)].
      + left. exists l. repeat split; [assumption|]. intros m Hm. right. rewrite Len.
        specialize (G m Hm). destruct (M m Hm) as [->|M']; cbn [length] in *; lia.
      + right. repeat split; [discriminate|]. exists m. rewrite Len. repeat split; [assumption|lia|].
        right. specialize (G m Hm). destruct G3 as [G3|G3]; lia.
    - destruct R as (-> & Tm & M). repeat split; [assumption|]. intros m Hm. right. rewrite Len.
      specialize (G m Hm). destruct (M m Hm) as [->|M']; cbn [length] in *; lia.
  Qed.

  Lemma evolve_log_ok : forall pr fuel w w' r,
    evolve pr fuel w = Some (w', r) ->
    exists l, wlog w' = wlog w ++ l /\ evolution_log pr l r.
  Proof.
    intros pr fuel w w' r H. unfold evolve in H.
    destruct (call_all (pre_evolve_calls pr) w) as [w1 r1] eqn:E1.
    apply call_all_log in E1 as (n1 & L1 & A1 & R1). rewrite pre_evolve_fst in R1.
    destruct r1 as [e1|].
    { inversion H; subst. exists n1. split; [assumption|]. apply log_pre_evolve_raises. assumption. }
    subst n1.
    destruct (birth_check pr (wb w1)) as [e|] eqn:B.
    { inversion H; subst. exists (all_ok (pre_evolves pr)). split; [assumption|].
      apply log_birth. unfold birth_check in B. destruct (cur (bc (wb w')) "time");
        try (inversion B; auto; fail). destruct (z >? p_max_time pr)%Z; inversion B; auto. }
    destruct (evolve_loop pr fuel 0 w1) as [[w2 r2]|] eqn:E2; [|discriminate].
    apply loop_log in E2 as (bs & ls & tail & Hb & L2 & R2).
    destruct r2 as [e|].
    - inversion H; subst. cbn. destruct R2 as [(l & -> & Br & M)|(-> & -> & Ne & m & Hm & G & G')].
      + eexists. split.
        2:{ apply log_step_raises with (bs := bs) (ls := ls) (l := l); assumption. }
        rewrite L2, L1, <- !app_assoc. reflexivity.
      + eexists. split.
        2:{ apply log_too_many with (bs := bs) (ls := ls) (m := m); try assumption. lia. }
        rewrite L2, L1, app_nil_r, <- !app_assoc. reflexivity.
    - destruct R2 as (-> & T & M). injection H as H.
      apply call_all_log in H as (n3 & L3 & A3 & R3). cbn in L3. rewrite post_evolve_fst in R3.
      rewrite L2, L1, app_nil_r in L3.
      exists (all_ok (pre_evolves pr) ++ ls ++ [EAlarm 0] ++ n3).
      split; [rewrite L3, <- !app_assoc; reflexivity|].
      destruct r as [e|].
      + apply log_post_evolve_raises with (bs := bs); assumption.
      + subst n3. apply log_normal with (bs := bs). assumption.
  Qed.

  (** ** Counting *)
  Lemma steps_in_app : forall a b, steps_in (a ++ b) = steps_in a + steps_in b.
  Proof.
    induction a as [|x a IH]; intro b; [reflexivity|]. cbn [app steps_in].
    destruct x as [c r| | |]; [destruct c|..]; cbn; rewrite IH; reflexivity.
  Qed.
  Lemma post_in_app : forall a b, post_evolves_in (a ++ b) = post_evolves_in a + post_evolves_in b.
  Proof.
    induction a as [|x a IH]; intro b; [reflexivity|]. cbn [app post_evolves_in].
    destruct x as [c r| | |]; [destruct c|..]; cbn; rewrite IH; reflexivity.
  Qed.

  Fixpoint callee_steps (cs : list callee) : nat :=
    match cs with [] => 0 | Step _ :: l => S (callee_steps l) | _ :: l => callee_steps l end.
  Fixpoint callee_posts (cs : list callee) : nat :=
    match cs with [] => 0 | PostEvolve _ :: l => S (callee_posts l) | _ :: l => callee_posts l end.
  Lemma steps_all_ok : forall cs, steps_in (all_ok cs) = callee_steps cs.
  Proof. induction cs as [|c cs IH]; [reflexivity|]. destruct c; cbn; rewrite <- IH; reflexivity. Qed.
  Lemma posts_all_ok : forall cs, post_evolves_in (all_ok cs) = callee_posts cs.
  Proof. induction cs as [|c cs IH]; [reflexivity|]. destruct c; cbn; rewrite <- IH; reflexivity. Qed.
  Lemma callee_steps_app : forall a b, callee_steps (a ++ b) = callee_steps a + callee_steps b.
  Proof. induction a as [|c a IH]; intro b; [reflexivity|]. destruct c; cbn; rewrite IH; reflexivity. Qed.
  Lemma callee_posts_app : forall a b, callee_posts (a ++ b) = callee_posts a + callee_posts b.
  Proof. induction a as [|c a IH]; intro b; [reflexivity|]. destruct c; cbn; rewrite IH; reflexivity. Qed.
  Lemma callee_steps_map : forall (f : hook_id -> callee) l,
    (forall h, callee_steps [f h] = 0) -> callee_steps (map f l) = 0.
  Proof.
    intros f l H. induction l as [|x l IH]; [reflexivity|]. cbn [map].
    change (f x :: map f l) with ([f x] ++ map f l). rewrite callee_steps_app, H, IH. reflexivity.
  Qed.
  Lemma callee_posts_map : forall (f : hook_id -> callee) l n,
    (forall h, callee_posts [f h] = n) -> callee_posts (map f l) = n * length l.
  Proof.
    intros f l n H. induction l as [|x l IH]; [cbn; lia|]. cbn [map].
    change (f x :: map f l) with ([f x] ++ map f l). rewrite callee_posts_app, H, IH. cbn [length]. lia.
  Qed.
  Lemma up_to_steps : forall pr s, callee_steps (up_to_step pr s) = 1.
  Proof.
    intros. unfold up_to_step, pre_steps. rewrite !callee_steps_app.
    rewrite callee_steps_map by reflexivity. reflexivity.
  Qed.
  Lemma up_to_posts : forall pr s, callee_posts (up_to_step pr s) = 0.
  Proof.
    intros. unfold up_to_step, pre_steps. rewrite !callee_posts_app.
    rewrite callee_posts_map with (n := 0) by reflexivity. reflexivity.
  Qed.
  Lemma post_steps_steps : forall pr s, callee_steps (post_steps pr s) = 0.
  Proof. intros. unfold post_steps. rewrite callee_steps_map by reflexivity. reflexivity. Qed.
  Lemma post_steps_posts : forall pr s, callee_posts (post_steps pr s) = 0.
  Proof. intros. unfold post_steps. rewrite callee_posts_map with (n := 0) by reflexivity. reflexivity. Qed.
  Lemma block_steps : forall pr b l, block_log pr b l -> steps_in l = 1.
  Proof.
    intros pr b l H. inversion H; subst; cbn [steps_in]; rewrite !steps_in_app, steps_all_ok, up_to_steps;
      cbn [steps_in]; rewrite ?steps_all_ok, ?post_steps_steps; reflexivity.
  Qed.
  Lemma block_posts : forall pr b l, block_log pr b l -> post_evolves_in l = 0.
  Proof.
    intros pr b l H. inversion H; subst; cbn [post_evolves_in]; rewrite !post_in_app, posts_all_ok, up_to_posts;
      cbn [post_evolves_in]; rewrite ?posts_all_ok, ?post_steps_posts; reflexivity.
  Qed.
  Lemma blocks_steps : forall pr bs ls, blocks_log pr bs ls -> steps_in ls = length bs.
  Proof.
    intros pr bs ls H. induction H; [reflexivity|].
    rewrite steps_in_app, IHblocks_log. erewrite block_steps by eassumption. reflexivity.
  Qed.
  Lemma blocks_posts : forall pr bs ls, blocks_log pr bs ls -> post_evolves_in ls = 0.
  Proof.
    intros pr bs ls H. induction H; [reflexivity|].
    rewrite post_in_app, IHblocks_log. erewrite block_posts by eassumption. reflexivity.
  Qed.

  Lemma stops_steps : forall cs l e, stops_at cs l e -> steps_in l <= callee_steps cs.
  Proof.
    intros cs l e (x & c & y & -> & ->). rewrite steps_in_app, steps_all_ok.
    rewrite callee_steps_app. destruct c; cbn; lia.
  Qed.
  Lemma stops_posts : forall cs l e, stops_at cs l e -> post_evolves_in l <= callee_posts cs.
  Proof.
    intros cs l e (x & c & y & -> & ->). rewrite post_in_app, posts_all_ok.
    rewrite callee_posts_app. destruct c; cbn; lia.
  Qed.
  Lemma broken_steps : forall pr l e, broken_step pr l e -> steps_in l <= 1.
  Proof.
    intros pr l e H. inversion H as [|k s l' e' _ St|k s vb ev l' e' _ _ St]; subst; [cbn; lia|..]; cbn [steps_in].
    - apply stops_steps in St. rewrite up_to_steps in St. assumption.
    - apply stops_steps in St. rewrite post_steps_steps in St.
      rewrite !steps_in_app, steps_all_ok, up_to_steps. cbn. lia.
  Qed.
  Lemma broken_posts : forall pr l e, broken_step pr l e -> post_evolves_in l = 0.
  Proof.
    intros pr l e H. inversion H as [|k s l' e' _ St|k s vb ev l' e' _ _ St]; subst; [reflexivity|..]; cbn [post_evolves_in].
    - apply stops_posts in St. rewrite up_to_posts in St. lia.
    - apply stops_posts in St. rewrite post_steps_posts in St.
      rewrite !post_in_app, posts_all_ok, up_to_posts. cbn. lia.
  Qed.

  Lemma pre_steps0 : forall pr, steps_in (all_ok (pre_evolves pr)) = 0.
  Proof. intros. rewrite steps_all_ok. apply callee_steps_map. reflexivity. Qed.
  Lemma pre_posts0 : forall pr, post_evolves_in (all_ok (pre_evolves pr)) = 0.
  Proof. intros. rewrite posts_all_ok. unfold pre_evolves. rewrite callee_posts_map with (n := 0) by reflexivity. reflexivity. Qed.
  Lemma post_steps0 : forall pr, callee_steps (post_evolves pr) = 0.
  Proof. intros. apply callee_steps_map. reflexivity. Qed.

  (** ** Step limit *)
  Lemma evolve_step_limit : forall pr fuel w w' r N,
    wlog w = [] -> p_max_n pr = Some N ->
    evolve pr fuel w = Some (w', r) ->
    (Z.of_nat (steps_in (wlog w')) <= Z.max 0 N + 1)%Z
    /\ (r = None -> (Z.of_nat (steps_in (wlog w')) <= Z.max 0 N)%Z).
  Proof.
    intros pr fuel w w' r N L0 HN H. unfold evolve in H.
    destruct (call_all (pre_evolve_calls pr) w) as [w1 r1] eqn:E1.
    apply call_all_log in E1 as (n1 & L1 & A1 & R1). rewrite pre_evolve_fst in R1.
    rewrite L0 in L1. cbn in L1.
    destruct r1 as [e1|].
    { inversion H; subst. apply stops_steps in R1. rewrite <- steps_all_ok, pre_steps0 in R1.
      split; [lia|discriminate]. }
    rewrite R1 in L1. clear R1 n1.
    assert (S1 : steps_in (wlog w1) = 0) by (rewrite L1; apply pre_steps0).
    destruct (birth_check pr (wb w1)).
    { inversion H; subst. rewrite S1. split; [lia|discriminate]. }
    destruct (evolve_loop pr fuel 0 w1) as [[w2 r2]|] eqn:E2; [|discriminate].
    apply loop_log in E2 as (bs & ls & tail & Hb & L2 & R2).
    assert (S2 : steps_in (wlog w2) = length bs + steps_in tail)
      by (rewrite L2, !steps_in_app, S1, (blocks_steps _ _ _ Hb); reflexivity).
    destruct r2 as [e|].
    - inversion H; subst. cbn. rewrite steps_in_app, S2. cbn [steps_in].
      split; [|discriminate].
      destruct R2 as [(l & -> & Br & M)|(-> & -> & Ne & m & Hm & G & G')].
      + cbn [steps_in]. apply broken_steps in Br. destruct (M N HN) as [->|M']; cbn [length] in *; lia.
      + cbn. assert (m = N) by congruence. subst m. destruct G' as [G'|G']; lia.
    - destruct R2 as (-> & T & M). injection H as H.
      apply call_all_log in H as (n3 & L3 & A3 & R3). rewrite post_evolve_fst in R3. cbn in L3.
      assert (S3 : steps_in n3 = 0).
      { destruct r as [e|].
        - apply stops_steps in R3. rewrite post_steps0 in R3. lia.
        - subst n3. rewrite steps_all_ok. apply post_steps0. }
      rewrite L3, !steps_in_app, S2, S3. cbn [steps_in]. destruct (M N HN) as [->|M']; cbn [length] in *; lia.
  Qed.

  Lemma loop_terminates : forall pr N fuel n w,
    p_max_n pr = Some N -> (0 <= n)%Z -> (Z.max 0 (N - n) + 2 <= Z.of_nat fuel)%Z ->
    evolve_loop pr fuel n w <> None.
  Proof.
    intros pr N fuel. induction fuel as [|fuel IH]; intros n w HN Hn Hf; [lia|].
    cbn [evolve_loop]. destruct (terminal pr (wb w)); [discriminate|].
    destruct (run_step pr (set_alarm w MAXIMUM_STEP_TIME)) as [w1 [e|]]; [discriminate|].
    rewrite HN. destruct (n + 1 >? N)%Z eqn:G; [discriminate|].
    rewrite Z.gtb_ltb in G. apply Z.ltb_ge in G. apply IH; [assumption|lia|lia].
  Qed.

  Lemma evolve_terminates : forall pr N fuel w,
    p_max_n pr = Some N -> (Z.max 0 N + 2 <= Z.of_nat fuel)%Z -> evolve pr fuel w <> None.
  Proof.
    intros pr N fuel w HN Hf. unfold evolve.
    destruct (call_all (pre_evolve_calls pr) w) as [w1 [e|]]; [discriminate|].
    destruct (birth_check pr (wb w1)); [discriminate|].
    destruct (evolve_loop pr fuel 0 w1) as [[w2 [e|]]|] eqn:E; try discriminate.
    exfalso. apply (loop_terminates pr N fuel 0 w1 HN); [lia|lia|exact E].
  Qed.

  (** More fuel never changes a finished run. *)
  Lemma loop_fuel_mono : forall pr fuel fuel' n w x,
    evolve_loop pr fuel n w = Some x -> fuel <= fuel' -> evolve_loop pr fuel' n w = Some x.
  Proof.
    intros pr fuel. induction fuel as [|fuel IH]; intros fuel' n w x H L; [discriminate|].
    destruct fuel' as [|fuel']; [lia|]. cbn [evolve_loop] in *.
    destruct (terminal pr (wb w)); [assumption|].
    destruct (run_step pr (set_alarm w MAXIMUM_STEP_TIME)) as [w1 [e|]]; [assumption|].
    destruct (p_max_n pr) as [m|]; [destruct (n + 1 >? m)%Z; [assumption|]|]; apply IH; auto; lia.
  Qed.

  Lemma evolve_deterministic : forall pr f1 f2 w x y,
    evolve pr f1 w = Some x -> evolve pr f2 w = Some y -> x = y.
  Proof.
    intros pr f1 f2 w x y H1 H2. unfold evolve in *.
    destruct (call_all (pre_evolve_calls pr) w) as [w1 [e|]]; [congruence|].
    destruct (birth_check pr (wb w1)); [congruence|].
    destruct (evolve_loop pr f1 0 w1) as [z1|] eqn:E1; [|discriminate].
    destruct (evolve_loop pr f2 0 w1) as [z2|] eqn:E2; [|discriminate].
    assert (z1 = z2).
    { pose proof (loop_fuel_mono pr f1 (Nat.max f1 f2) 0 w1 z1 E1 (Nat.le_max_l _ _)).
      pose proof (loop_fuel_mono pr f2 (Nat.max f1 f2) 0 w1 z2 E2 (Nat.le_max_r _ _)). congruence. }
    subst. congruence.
  Qed.

  (** ** Normal return, alarm *)
  Lemma val_eqb_spec : forall x y, reflect (x = y) (val_eqb x y).
  Proof. intros x y. unfold val_eqb. destruct (val_eq_dec x y); constructor; assumption. Qed.
  Lemma terminal_iff : forall pr b, terminal pr b = true <-> stopped pr b.
  Proof.
    intros pr b. unfold terminal, stopped. rewrite !orb_true_iff.
    destruct (val_eqb_spec (b_event b) (VStr "END")), (val_eqb_spec (b_event b) (VStr "FAILED")),
      (inb_spec val_eqb_spec (b_event b) (p_end_events pr)), (inb_spec val_eqb_spec (b_state b) (p_end_states pr));
      intuition discriminate.
  Qed.
  Lemma evolve_normal_terminal : forall pr fuel w w',
    evolve pr fuel w = Some (w', None) ->
    exists w2, terminal pr (wb w2) = true /\ call_all (post_evolve_calls pr) w2 = (w', None).
  Proof.
    intros pr fuel w w' H. unfold evolve in H.
    destruct (call_all (pre_evolve_calls pr) w) as [w1 [e|]]; [discriminate|].
    destruct (birth_check pr (wb w1)); [discriminate|].
    destruct (evolve_loop pr fuel 0 w1) as [[w2 [e|]]|] eqn:E; try discriminate.
    apply loop_log in E as (bs & ls & tail & Hb & L2 & R2). destruct R2 as (_ & T & _).
    exists (set_alarm w2 0). split; [exact T|]. injection H as H. exact H.
  Qed.

  Lemma evolve_alarm_off : forall pr fuel w w' r,
    walarm w = 0%Z -> evolve pr fuel w = Some (w', r) -> walarm w' = 0%Z.
  Proof.
    intros pr fuel w w' r A H. unfold evolve in H.
    destruct (call_all (pre_evolve_calls pr) w) as [w1 r1] eqn:E1.
    apply call_all_log in E1 as (n1 & L1 & A1 & R1).
    destruct r1 as [e|]; [inversion H; subst; congruence|].
    destruct (birth_check pr (wb w1)); [inversion H; subst; congruence|].
    destruct (evolve_loop pr fuel 0 w1) as [[w2 [e|]]|] eqn:E; try discriminate.
    - inversion H; subst. reflexivity.
    - injection H as H. apply call_all_log in H as (n3 & L3 & A3 & R3). rewrite A3. reflexivity.
  Qed.

  Lemma evolve_post_count : forall pr l r, evolution_log pr l r ->
    (r = None -> post_evolves_in l = n_hooks pr + (if present (p_extra_post_evolve pr) then 1 else 0))
    /\ (forall e, r = Some e -> post_evolves_in l = 0 \/
          exists bs ls l', stops_at (post_evolves pr) l' e /\ blocks_log pr bs ls /\
            l = all_ok (pre_evolves pr) ++ ls ++ [EAlarm 0] ++ l').
  Proof.
    intros pr l r H. split.
    - intros ->. inversion H as [bs ls Hb| | | | |]; subst.
      rewrite !post_in_app, pre_posts0, (blocks_posts _ _ _ Hb), posts_all_ok.
      unfold post_evolves. rewrite callee_posts_map with (n := 1) by reflexivity.
      unfold ids. rewrite app_length, map_length, seq_length.
      destruct (present (p_extra_post_evolve pr)); cbn; lia.
    - intros e ->. inversion H as [|l0 e0 St|e0 _|bs ls l0 e0 Hb St|bs ls m Hb _ _ _|bs ls l0 e0 Hb St]; subst.
      + left. apply stops_posts in St. rewrite <- posts_all_ok, pre_posts0 in St. lia.
      + left. apply pre_posts0.
      + left. rewrite !post_in_app, pre_posts0, (blocks_posts _ _ _ Hb). cbn.
        rewrite (broken_posts _ _ _ St). reflexivity.
      + left. rewrite !post_in_app, pre_posts0, (blocks_posts _ _ _ Hb). reflexivity.
      + right. exists bs, ls, l0. split; [assumption|]. split; [assumption|reflexivity].
  Qed.

  Lemma armed_app : forall a b z,
    armed_when_stepping z (a ++ b)
    <-> armed_when_stepping z a
        /\ armed_when_stepping (fold_left (fun acc x => match x with EAlarm y => y | _ => acc end) a z) b.
  Proof.
    induction a as [|x a IH]; intros b z; cbn; [tauto|].
    destruct x as [c r|y|k s|vb ev]; [destruct c|..]; rewrite ?IH; tauto.
  Qed.
  Lemma armed_calls : forall cs r z, (z > 0)%Z ->
    armed_when_stepping z (map (fun c => ECall c r) cs)
    /\ fold_left (fun acc x => match x with EAlarm y => y | _ => acc end) (map (fun c => ECall c r) cs) z = z.
  Proof.
    induction cs as [|c cs IH]; intros r z H; cbn; [tauto|].
    destruct (IH r z H). destruct c; cbn; tauto.
  Qed.
  Lemma armed_nosteps : forall cs z, callee_steps cs = 0 ->
    armed_when_stepping z (all_ok cs)
    /\ fold_left (fun acc x => match x with EAlarm y => y | _ => acc end) (all_ok cs) z = z.
  Proof.
    induction cs as [|c cs IH]; intros z H; cbn; [tauto|].
    destruct c; cbn in H; try discriminate; destruct (IH z H); tauto.
  Qed.
  Lemma armed_stops : forall cs l e z, stops_at cs l e -> (z > 0)%Z -> armed_when_stepping z l.
  Proof.
    intros cs l e z (x & c & y & -> & ->) H. apply armed_app. split.
    - apply armed_calls. assumption.
    - destruct (armed_calls x None z H) as [_ E]. unfold all_ok. rewrite E. destruct c; cbn; tauto.
  Qed.
  Lemma armed_stops0 : forall cs l e z, stops_at cs l e -> callee_steps cs = 0 -> armed_when_stepping z l.
  Proof.
    intros cs l e z (x & c & y & -> & ->) H. rewrite callee_steps_app in H.
    apply armed_app. destruct (armed_nosteps x z) as [A E]; [lia|]. split; [exact A|].
    rewrite E. destruct c; cbn in *; try tauto. lia.
  Qed.
  Definition no_alarm (l : list entry) : bool :=
    forallb (fun x => match x with EAlarm _ => false | _ => true end) l.
  Lemma armed_no_alarm : forall l z, (z > 0)%Z -> no_alarm l = true -> armed_when_stepping z l.
  Proof.
    induction l as [|x l IH]; intros z Hz H; cbn in *; [tauto|].
    apply andb_true_iff in H as [Hx H]. specialize (IH z Hz H).
    destruct x as [c r|y|k s|vb ev]; [destruct c; auto|discriminate|auto|auto].
  Qed.
  Lemma no_alarm_app : forall a b, no_alarm (a ++ b) = no_alarm a && no_alarm b.
  Proof. intros. apply forallb_app. Qed.
  Lemma no_alarm_ok : forall cs, no_alarm (all_ok cs) = true.
  Proof. induction cs; [reflexivity|assumption]. Qed.
  Lemma no_alarm_stops : forall cs l e, stops_at cs l e -> no_alarm l = true.
  Proof. intros cs l e (x & c & y & -> & ->). rewrite no_alarm_app, no_alarm_ok. reflexivity. Qed.
  Lemma armed_block : forall pr b l z, block_log pr b l -> armed_when_stepping z l.
  Proof.
    intros pr b l z H. inversion H; subst; cbn [armed_when_stepping]; apply armed_no_alarm; try lia;
      rewrite ?no_alarm_app, ?no_alarm_ok; cbn; rewrite ?no_alarm_app, ?no_alarm_ok; reflexivity.
  Qed.
  Lemma armed_blocks : forall pr bs ls z, blocks_log pr bs ls -> armed_when_stepping z ls.
  Proof.
    intros pr bs ls z H. revert z. induction H; intro z; cbn; [tauto|].
    apply armed_app. split; [|apply IHblocks_log]. eapply armed_block; eassumption.
  Qed.

  Lemma evolution_log_armed : forall pr l r z, evolution_log pr l r -> armed_when_stepping z l.
  Proof.
    intros pr l r z H.
    assert (P : forall z t, armed_when_stepping z t -> armed_when_stepping z (all_ok (pre_evolves pr) ++ t)).
    { intros z0 t Ht. apply armed_app.
      destruct (armed_nosteps (pre_evolves pr) z0) as [A E]; [apply callee_steps_map; reflexivity|].
      split; [exact A|]. rewrite E. exact Ht. }
    assert (Q : forall z bs ls t, blocks_log pr bs ls -> (forall z', armed_when_stepping z' t) ->
              armed_when_stepping z (ls ++ t)).
    { intros z0 bs ls t Hb Ht. apply armed_app. split; [eapply armed_blocks; eassumption|apply Ht]. }
    inversion H as [bs ls Hb|l0 e0 St|e0 _|bs ls l0 e0 Hb St|bs ls m Hb _ _ _|bs ls l0 e0 Hb St]; subst.
    - apply P. eapply Q; [eassumption|]. intro z'. cbn. apply armed_nosteps. apply post_steps0.
    - eapply armed_stops0; [eassumption|]. apply callee_steps_map; reflexivity.
    - apply armed_nosteps. apply callee_steps_map; reflexivity.
    - apply P. eapply Q; [eassumption|]. intro z'. cbn. apply armed_app. split; [|cbn; tauto].
      apply armed_no_alarm; [lia|].
      inversion St as [|k s l' e' _ S2|k s vb ev l' e' _ _ S2]; subst; [reflexivity|..]; cbn.
      + eapply no_alarm_stops; eassumption.
      + rewrite no_alarm_app, no_alarm_ok. cbn. eapply no_alarm_stops; eassumption.
    - apply P. eapply Q; [eassumption|]. intro z'. cbn. tauto.
    - apply P. eapply Q; [eassumption|]. intro z'. cbn. eapply armed_stops0; [eassumption|]. apply post_steps0.
  Qed.
End P.
