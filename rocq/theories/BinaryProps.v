(** Properties C06-C12: evolution loop, histories, hooks, component exchange. *)
From Coq Require Import String List Bool ZArith Lia.
From Verif Require Import PyBase FlowChartModel FlowChartSpec FlowChartProofs BinaryModel BinarySpec
  EvolveProofs HistoryProofs HookProofs.
Import ListNotations.
Open Scope string_scope.
Open Scope list_scope.

(** ** A concrete simulation used by the examples: a redirection that is not recorded, a
    detached step and the end, observed by both built-in hooks. *)
Definition ex_flow (k : key) : option step_name :=
  match ke k with
  | ZAMS => Some step_HMS_HMS | redirect_from_ZAMS => Some step_detached
  | EvNone => Some step_end | _ => None end.
Definition ex_assign (v : val) : actor nat :=
  fun b e => (with_bc b (set_cur (bc b) "event" v), S e, None).
Definition ex_step (s : step_name) : option (actor nat) :=
  match s with
  | step_HMS_HMS => Some (ex_assign (VStr "redirect_from_ZAMS"))
  | step_detached => Some (ex_assign VNone)
  | step_end => Some (ex_assign (VStr "END"))
  | step_SN => Some (fun b e => (b, e, Some RuntimeError))
  | _ => None end.
Definition ex_pr (flow : key -> option step_name) (limit : Z) : properties nat :=
  Properties [StepNamesHooks nat; TimingHooks nat (fun e => VNum (Z.of_nat e)) S] None None None None
    flow ex_step 100 (Some limit) [] [].
Definition ex_vals (s : string) : string -> val :=
  fun p => if String.eqb p "time" then VNum 0 else if String.eqb p "event" then VStr "ZAMS"
           else if String.eqb p "state" then VStr s else VNone.
Definition ex_binary (vb : bool) : binary :=
  new_binary (ex_vals "detached") (ex_vals "H-rich_Core_H_burning") (ex_vals "H-rich_Core_H_burning") vb.
Definition ex_world (vb : bool) : world nat := World (ex_binary vb) 0 0%Z [].

(** ** C06 *)
Theorem evolve_runs_bounded_steps : forall Ext (pr : properties Ext) fuel w w' r N,
  wlog w = [] -> p_max_n pr = Some N -> evolve pr fuel w = Some (w', r) ->
  (Z.of_nat (steps_in (wlog w')) <= Z.max 0 N + 1)%Z
  /\ (r = None -> (Z.of_nat (steps_in (wlog w')) <= Z.max 0 N)%Z).
Proof. intros Ext. exact (@evolve_step_limit Ext). Qed.

Theorem evolve_with_limit_terminates : forall Ext (pr : properties Ext) N w,
  p_max_n pr = Some N -> exists fuel x, evolve pr fuel w = Some x
    /\ forall fuel' y, evolve pr fuel' w = Some y -> y = x.
Proof.
  intros Ext pr N w HN. exists (Z.to_nat (Z.max 0 N + 2)).
  destruct (evolve pr (Z.to_nat (Z.max 0 N + 2)) w) as [x|] eqn:E.
  - exists x. split; [reflexivity|]. intros fuel' y H. exact (evolve_deterministic pr _ _ w y x H E).
  - exfalso. apply (evolve_terminates pr N (Z.to_nat (Z.max 0 N + 2)) w HN); [lia|exact E].
Qed.

(** Normal return: the loop was left in a stopping situation, and only post-evolve functions
    ran after that. *)
Theorem evolve_returns_when_stopped : forall Ext (pr : properties Ext) fuel w w',
  evolve pr fuel w = Some (w', None) ->
  exists w2, stopped pr (wb w2) /\ call_all (post_evolve_calls pr) w2 = (w', None).
Proof.
  intros Ext pr fuel w w' H. destruct (evolve_normal_terminal pr fuel w w' H) as (w2 & T & C).
  exists w2. split; [apply terminal_iff; exact T|exact C].
Qed.

Theorem evolve_disarms_alarm : forall Ext (pr : properties Ext) fuel w w' r,
  walarm w = 0%Z -> evolve pr fuel w = Some (w', r) ->
  walarm w' = 0%Z
  /\ exists l, wlog w' = wlog w ++ l /\ armed_when_stepping 0 l.
Proof.
  intros Ext pr fuel w w' r A H. split; [exact (evolve_alarm_off pr fuel w w' r A H)|].
  destruct (evolve_log_ok pr fuel w w' r H) as (l & L & E). exists l. split; [exact L|].
  exact (evolution_log_armed pr l r 0%Z E).
Qed.

(** Post-evolve functions: all of them, once, on normal return; none after a failed step. *)
Theorem post_evolve_runs_once : forall Ext (pr : properties Ext) fuel w w' r,
  wlog w = [] -> evolve pr fuel w = Some (w', r) ->
  (r = None ->
     post_evolves_in (wlog w') = n_hooks pr + (if present (p_extra_post_evolve pr) then 1 else 0))
  /\ (forall e, r = Some e -> post_evolves_in (wlog w') = 0
        \/ exists bs ls l', stops_at (post_evolves pr) l' e /\ blocks_log pr bs ls
              /\ wlog w' = all_ok (pre_evolves pr) ++ ls ++ [EAlarm 0] ++ l').
Proof.
  intros Ext pr fuel w w' r L H. destruct (evolve_log_ok pr fuel w w' r H) as (l & L' & E).
  rewrite L in L'. cbn in L'. rewrite L'. exact (evolve_post_count pr l r E).
Qed.

Example evolve_normal_case :
  match evolve (ex_pr ex_flow 10) 20 (ex_world false) with
  | Some (w', r) => r = None /\ steps_in (wlog w') = 3 /\ walarm w' = 0%Z
                    /\ post_evolves_in (wlog w') = 2 /\ b_event (wb w') = VStr "END"
  | None => False end.
Proof. vm_compute. repeat split. Qed.
Example evolve_limit_case :
  match evolve (ex_pr (fun _ => Some step_detached) 2) 20 (ex_world true) with
  | Some (w', r) => r = Some RuntimeError /\ steps_in (wlog w') = 3 /\ walarm w' = 0%Z
                    /\ post_evolves_in (wlog w') = 0
  | None => False end.
Proof. vm_compute. repeat split. Qed.
Example evolve_raising_case :
  match evolve (ex_pr (fun _ => Some step_SN) 2) 20 (ex_world true) with
  | Some (w', r) => r = Some RuntimeError /\ steps_in (wlog w') = 1 /\ walarm w' = 0%Z
  | None => False end.
Proof. vm_compute. repeat split. Qed.

(** ** C07 *)
Theorem histories_stay_aligned : forall Ext (pr : properties Ext) w,
  well_behaved pr -> session pr w -> exists n, rows n (wb w).
Proof. intros Ext. exact (@session_rows Ext). Qed.

Theorem assigning_callables_are_well_behaved : forall Ext (a : actor Ext),
  only_assigns a -> keeps_rows a.
Proof. intros Ext. exact (@only_assigns_keeps Ext). Qed.

Theorem append_records_current_values : forall b,
  ~ hidden (verbose b) (b_event b) -> grew b (append_state b).
Proof.
  intros b H. apply append_state_recorded. rewrite <- unrecorded_iff in H.
  destruct (unrecorded b); [exfalso; apply H; reflexivity|reflexivity].
Qed.
Theorem redirects_add_no_row : forall b,
  hidden (verbose b) (b_event b) -> append_state b = b.
Proof. intros b H. apply append_state_unrecorded. apply unrecorded_iff. exact H. Qed.

Lemma ex_assign_only : forall v, only_assigns (ex_assign v).
Proof. intros v b e b' e' r H. inversion H; subst. repeat split. Qed.
Lemma lift_only : forall Ext f, (forall b b', f b = Some b' ->
    hist (bc b') = hist (bc b) /\ st1 b' = st1 b /\ st2 b' = st2 b) ->
  forall a : actor Ext, (forall b e, a b e = lift Ext f b e) -> only_assigns a.
Proof.
  intros Ext f F a A b e b' e' r H. rewrite A in H. unfold lift in H. destruct (f b) as [b2|] eqn:E.
  - apply F in E as (E1 & E2 & E3). inversion H; subst. rewrite E1, E2, E3. auto.
  - inversion H; subst. auto.
Qed.
Lemma col_post_step_hist : forall c v b b', col_post_step c v b = Some b' ->
  hist (bc b') = hist (bc b) /\ st1 b' = st1 b /\ st2 b' = st2 b.
Proof.
  intros c v b b' H. unfold col_post_step in H. destruct (cols (bc b) c); [|discriminate].
  inversion H; subst. repeat split.
Qed.
Lemma col_post_evolve_hist : forall c b b', col_post_evolve c b = Some b' ->
  hist (bc b') = hist (bc b) /\ st1 b' = st1 b /\ st2 b' = st2 b.
Proof.
  intros c b b' H. unfold col_post_evolve in H. destruct (_ || _); [destruct (cols (bc b) c); [|discriminate]|];
  inversion H; subst; repeat split.
Qed.
Lemma col_pre_evolve_hist : forall c v b,
  hist (bc (col_pre_evolve c v b)) = hist (bc b) /\ st1 (col_pre_evolve c v b) = st1 b
  /\ st2 (col_pre_evolve c v b) = st2 b.
Proof. intros c v b. unfold col_pre_evolve. destruct (cols (bc b) c); repeat split. Qed.

(** The built-in hooks and the example steps are well behaved. *)
Example well_behaved_case : forall flow N, well_behaved (ex_pr flow N).
Proof.
  intros flow N. split; [|split; [|repeat split; discriminate]].
  - intros s f H. apply only_assigns_keeps. unfold ex_pr, ex_step in H. cbn [p_step] in H.
    destruct s; inversion H; subst; try apply ex_assign_only.
    intros b e b' e' r H'. inversion H'; subst. repeat split.
  - intros h [<-|[<-|[]]]; (split; [|split; [|intro s; split]]); apply only_assigns_keeps.
    + intros b e b' e' r H. inversion H; subst.
      destruct (col_pre_evolve_hist "step_names" (VStr "initial_cond") b) as (-> & -> & ->). auto.
    + eapply lift_only; [apply col_post_evolve_hist|reflexivity].
    + intros b e b' e' r H. inversion H; subst. auto.
    + eapply lift_only; [apply col_post_step_hist|reflexivity].
    + intros b e b' e' r H. inversion H; subst.
      destruct (col_pre_evolve_hist "step_times" (VNum 0) b) as (-> & -> & ->). auto.
    + eapply lift_only; [apply col_post_evolve_hist|reflexivity].
    + intros b e b' e' r H. inversion H; subst. auto.
    + intros b e b' e' r H. cbn [h_post_step TimingHooks] in H. unfold lift in H.
      destruct (col_post_step _ _ b) as [b2|] eqn:E.
      * apply col_post_step_hist in E as (E1 & E2 & E3). inversion H; subst. rewrite E1, E2, E3. auto.
      * inversion H; subst. auto.
Qed.

(** ** C08 *)
Theorem restore_returns_to_record : forall Ext (pr : properties Ext) n i b,
  rows n b -> i < n -> cols_present pr b ->
  exists b', restore pr (Z.of_nat i) b = (b', None) /\ is_record i b b' /\ keeps (S i) b b'
    /\ rows (S i) b'.
Proof.
  intros Ext pr n i b R L C. destruct (restore_nonneg pr n i b R L C) as (b' & A & B & D & E & _).
  exists b'. auto.
Qed.

(** Python indices counted from the end work the same way, except -1. *)
Theorem restore_negative_index : forall Ext (pr : properties Ext) n i b,
  rows n b -> (- Z.of_nat n <= i < -1)%Z -> cols_present pr b ->
  exists b', restore pr i b = (b', None) /\ is_record (Z.to_nat (i + Z.of_nat n)) b b'
    /\ keeps (S (Z.to_nat (i + Z.of_nat n))) b b'.
Proof.
  intros Ext pr n i b R L C.
  destruct (restore_valid pr n i b R) as (b' & A & B & D & _); [unfold valid_index; lia|exact C|].
  rewrite kept_normal in D by lia. unfold pos in *.
  assert (E : (i <? 0)%Z = true) by (apply Z.ltb_lt; lia). rewrite E in *. eauto.
Qed.
Theorem restore_last_empties_histories : forall Ext (pr : properties Ext) n b,
  rows (S n) b -> cols_present pr b ->
  exists b', restore pr (-1) b = (b', None) /\ is_record n b b' /\ rows 0 b'.
Proof.
  intros Ext pr n b R C.
  destruct (restore_valid pr (S n) (-1) b R) as (b' & A & B & D & _); [unfold valid_index; lia|exact C|].
  exists b'. split; [exact A|]. split.
  - assert (E : pos (S n) (-1) = n) by (unfold pos; change (-1 <? 0)%Z with true; cbv iota; lia).
    rewrite E in B. exact B.
  - apply (keeps_rows_n (S n) 0 b b' R); [lia|exact D].
Qed.
Theorem restore_out_of_range : forall Ext (pr : properties Ext) n i b,
  rows n b -> ~ (- Z.of_nat n <= i < Z.of_nat n)%Z -> restore pr i b = (b, Some IndexError).
Proof. intros Ext. exact (@restore_invalid Ext). Qed.

Theorem restore_compositional : forall Ext (pr : properties Ext) n i j b b1 b2 b3,
  rows n b -> j < n -> i <= j -> cols_present pr b ->
  restore pr (Z.of_nat j) b = (b1, None) ->
  restore pr (Z.of_nat i) b1 = (b2, None) ->
  restore pr (Z.of_nat i) b = (b3, None) ->
  same b2 b3.
Proof.
  intros Ext pr n i j b b1 b2 b3 R Lj Lij C H1 H2 H3.
  exact (restore_compose pr n i j b b1 b2 b3 R Lj Lij C (restore_present pr _ b b1 _ H1 C) H1 H2 H3).
Qed.

Definition ex_evolved : binary :=
  match evolve (ex_pr ex_flow 10) 20 (ex_world true) with Some (w, _) => wb w | None => ex_binary true end.
Definition lengths (b : binary) : list nat :=
  map (fun p => length (hist (bc b) p)) BINARYPROPERTIES
  ++ map (fun p => length (hist (st1 b) p)) STARPROPERTIES
  ++ map (fun p => length (hist (st2 b) p)) STARPROPERTIES.
Lemma lengths_rows : forall n b, forallb (Nat.eqb n) (lengths b) = true -> rows n b.
Proof.
  intros n b H. rewrite forallb_forall in H.
  split; [|split]; intros p Hp; symmetry; apply Nat.eqb_eq; apply H; unfold lengths.
  - apply in_or_app. left. apply in_map_iff. eauto.
  - apply in_or_app. right. apply in_or_app. left. apply in_map_iff. eauto.
  - apply in_or_app. right. apply in_or_app. right. apply in_map_iff. eauto.
Qed.
Example restore_case :
  rows 4 ex_evolved /\ cols_present (ex_pr ex_flow 10) ex_evolved
  /\ hist (bc ex_evolved) "event" = [VStr "ZAMS"; VStr "redirect_from_ZAMS"; VNone; VStr "END"]
  /\ (let '(b, r) := restore (ex_pr ex_flow 10) 1 ex_evolved in
       r = None /\ b_event b = VStr "redirect_from_ZAMS"
       /\ hist (bc b) "event" = [VStr "ZAMS"; VStr "redirect_from_ZAMS"]
       /\ cols (bc b) "step_names" = Some [VStr "initial_cond"; VStr "step_HMS_HMS"])
  /\ (let '(b, r) := restore (ex_pr ex_flow 10) (-1) ex_evolved in
       r = None /\ b_event b = VStr "END" /\ hist (bc b) "event" = []).
Proof.
  split; [apply lengths_rows; vm_compute; reflexivity|]. split.
  { split.
    - intros h p [<-|[<-|[]]] [<-|[]]; vm_compute; discriminate.
    - intros h p [<-|[<-|[]]] []. }
  vm_compute. repeat split.
Qed.

(** A declared hook column that the binary lacks makes restore fail half-way. *)
Theorem restore_missing_column_refuted : exists (pr : properties nat) b b',
  rows 2 b /\ restore pr 0 b = (b', Some AttributeError) /\ ~ exists n, rows n b'.
Proof.
  exists (ex_pr ex_flow 10), (append_state (ex_binary true)).
  destruct (restore (ex_pr ex_flow 10) 0 (append_state (ex_binary true))) as [b' r] eqn:E.
  exists b'. split; [apply lengths_rows; vm_compute; reflexivity|].
  assert (R : r = snd (restore (ex_pr ex_flow 10) 0 (append_state (ex_binary true)))) by (rewrite E; reflexivity).
  assert (L1 : length (hist (bc b') "event") = 1).
  { replace b' with (fst (restore (ex_pr ex_flow 10) 0 (append_state (ex_binary true)))) by (rewrite E; reflexivity).
    vm_compute. reflexivity. }
  assert (L2 : length (hist (st1 b') "state") = 2).
  { replace b' with (fst (restore (ex_pr ex_flow 10) 0 (append_state (ex_binary true)))) by (rewrite E; reflexivity).
    vm_compute. reflexivity. }
  split.
  - rewrite R. apply f_equal. vm_compute. reflexivity.
  - intros [n (R0 & R1 & _)]. rewrite (R0 "event") in L1 by (right; left; reflexivity).
    rewrite (R1 "state") in L2 by (left; reflexivity). congruence.
Qed.

(** ** C09 *)
Theorem hooks_nest_around_steps : forall Ext (pr : properties Ext) fuel w w' r,
  evolve pr fuel w = Some (w', r) ->
  exists l, wlog w' = wlog w ++ l /\ evolution_log pr l r.
Proof. intros Ext. exact (@evolve_log_ok Ext). Qed.

Theorem hooks_nest_around_one_step : forall Ext (pr : properties Ext) w w' r,
  run_step pr w = (w', r) ->
  exists new, wlog w' = wlog w ++ new /\
    match r with
    | None => exists b, bl_key b = total_state (wb w) /\ chosen pr (bl_key b) (bl_step b)
        /\ block_log pr b (EAlarm 120 :: new)
    | Some e => broken_step pr new e
    end.
Proof.
  intros Ext pr w w' r H. destruct (run_step_log pr w w' r H) as (new & L & _ & R). eauto.
Qed.

Example hook_order_case :
  match evolve (ex_pr ex_flow 10) 20 (ex_world false) with
  | Some (w', r) => wlog w' =
      [ ECall (PreEvolve (HookNo 0)) None; ECall (PreEvolve (HookNo 1)) None;
        EAlarm 120;
        EChoose (Key HR_Core_H_burning HR_Core_H_burning detached ZAMS) step_HMS_HMS;
        ECall (PreStep (HookNo 0) step_HMS_HMS) None; ECall (PreStep (HookNo 1) step_HMS_HMS) None;
        ECall (Step step_HMS_HMS) None; EDone false (VStr "redirect_from_ZAMS");
        EAlarm 120;
        EChoose (Key HR_Core_H_burning HR_Core_H_burning detached redirect_from_ZAMS) step_detached;
        ECall (PreStep (HookNo 0) step_detached) None; ECall (PreStep (HookNo 1) step_detached) None;
        ECall (Step step_detached) None; EDone false VNone;
        ECall (PostStep (HookNo 0) step_detached) None; ECall (PostStep (HookNo 1) step_detached) None;
        EAlarm 120;
        EChoose (Key HR_Core_H_burning HR_Core_H_burning detached EvNone) step_end;
        ECall (PreStep (HookNo 0) step_end) None; ECall (PreStep (HookNo 1) step_end) None;
        ECall (Step step_end) None; EDone false (VStr "END");
        ECall (PostStep (HookNo 0) step_end) None; ECall (PostStep (HookNo 1) step_end) None;
        EAlarm 0;
        ECall (PostEvolve (HookNo 0)) None; ECall (PostEvolve (HookNo 1)) None ]
  | None => False end.
Proof. vm_compute. reflexivity. Qed.

(** ** C10 *)
Theorem hook_column_one_entry_per_row : forall Ext (pr : properties Ext) k c init entry_of fuel w w',
  column_setup pr k c init entry_of ->
  (forall s f, p_step pr s = Some f -> extending c f /\ tidy_redirects f) ->
  (cols (bc (wb w)) c = None /\ n_rows (wb w) = 1) \/ column_fits c (wb w) ->
  evolve pr fuel w = Some (w', None) -> column_fits c (wb w').
Proof.
  intros Ext pr k c init en fuel w w' S T I H.
  exact (evolve_fits pr k c init en S (fun s f F => proj1 (T s f F)) fuel w w' (fun s f F => proj2 (T s f F)) I H).
Qed.

(** Whatever the redirections did, a finished or failed binary has a fitting column. *)
Theorem hook_column_fits_at_end : forall Ext (pr : properties Ext) k c init entry_of fuel w w',
  column_setup pr k c init entry_of ->
  (forall s f, p_step pr s = Some f -> extending c f) ->
  (cols (bc (wb w)) c = None /\ 1 <= n_rows (wb w)) \/ column_short c (wb w) ->
  evolve pr fuel w = Some (w', None) ->
  b_event (wb w') = VStr "END" \/ b_event (wb w') = VStr "FAILED" -> column_fits c (wb w').
Proof.
  intros Ext pr k c init en fuel w w' S T I H E.
  exact (proj2 (evolve_short pr k c init en S T fuel w w' I H) E).
Qed.

(** With steps that leave the histories to the caller, the step-name column gains exactly
    the names of the recorded steps, in order. *)
Theorem step_names_column_contents : forall Ext (pr : properties Ext) k fuel w w' l,
  column_setup pr k "step_names" (VStr "initial_cond") (fun s _ => step_val s) ->
  (forall s f, p_step pr s = Some f -> neutral "step_names" f) ->
  (cols (bc (wb w)) "step_names" = Some l
   \/ cols (bc (wb w)) "step_names" = None /\ l = [VStr "initial_cond"]) ->
  length l = n_rows (wb w) ->
  evolve pr fuel w = Some (w', None) ->
  exists new, wlog w' = wlog w ++ new
    /\ cols (bc (wb w')) "step_names" = Some (l ++ map step_val (posted k new))
    /\ n_rows (wb w') = n_rows (wb w) + length (posted k new).
Proof.
  intros Ext pr k fuel w w' l S T I L H.
  apply (evolve_names pr k S T fuel w w' l); [|exact L|exact H].
  unfold start. destruct I as [->|[-> ->]]; reflexivity.
Qed.

Theorem restore_keeps_hook_column : forall Ext (pr : properties Ext) n i b b' c h,
  rows n b -> i < n -> cols_present pr b ->
  In h (p_hooks pr) -> In c (h_binary_cols h) ->
  restore pr (Z.of_nat i) b = (b', None) -> column_fits c b -> column_fits c b'.
Proof. intros Ext. exact (@restore_fits Ext). Qed.

Theorem timing_hooks_keep_a_column : forall Ext duration tick,
  column_hook "step_times" (VNum 0) (fun _ e => duration e) (TimingHooks Ext duration tick).
Proof. intros Ext. exact (@timing_is_column_hook Ext). Qed.
Theorem step_names_hooks_keep_a_column : forall Ext,
  column_hook "step_names" (VStr "initial_cond") (fun s (_ : Ext) => step_val s) (StepNamesHooks Ext).
Proof. intros Ext. exact (@names_is_column_hook Ext). Qed.

(** The shortening branch of the hooks is off by one. *)
Theorem hook_column_trim_refuted : forall c v b l,
  cols (bc b) c = Some l -> n_rows b <= length l -> 2 <= n_rows b ->
  exists b', col_post_step c v b = Some b' /\ ~ column_fits c b'.
Proof.
  intros c v b l C L N. destruct (col_post_step_trim c v b l C L N) as (b' & l' & H & C' & N' & L').
  exists b'. split; [exact H|]. intros (l2 & C2 & L2). rewrite C' in C2. inversion C2; subst. lia.
Qed.

Lemma col_post_step_neutral : forall Ext c c' v (a : actor Ext), c <> c' ->
  (forall b e, a b e = lift Ext (col_post_step c' (v e)) b e) -> neutral c a.
Proof.
  intros Ext c c' v a NE A b e b' e' r H. rewrite A in H. unfold lift in H.
  destruct (col_post_step c' (v e) b) as [b2|] eqn:E; [|inversion H; subst; auto].
  unfold col_post_step in E. destruct (cols (bc b) c'); [|discriminate].
  inversion E; subst. inversion H; subst. cbn. split; [apply upd_other; exact NE|reflexivity].
Qed.
Example column_setup_case : forall flow N,
  column_setup (ex_pr flow N) 0 "step_names" (VStr "initial_cond") (fun s _ => step_val s)
  /\ (forall s f, p_step (ex_pr flow N) s = Some f ->
        neutral "step_names" f /\ extending "step_names" f /\ tidy_redirects f).
Proof.
  intros flow N. split.
  - split; [exists (StepNamesHooks nat); split; [reflexivity|apply names_is_column_hook]|].
    split; [|repeat split; discriminate].
    intros [|[|j]] h J E; [congruence| |destruct j; discriminate]. cbn in E. inversion E; subst.
    split; [|split; [split|intro s; split]].
    + intros b e b' e' r H. inversion H; subst. unfold col_pre_evolve.
      destruct (cols (bc b) "step_times"); split; reflexivity.
    + intros b e b' e' r H. cbn in H. unfold lift, col_post_evolve in H.
      destruct (_ || _); [destruct (cols (bc b) "step_times")|]; inversion H; subst; split; reflexivity.
    + intros b e b' e' r H. cbn in H. unfold lift, col_post_evolve in H.
      destruct (_ || _); [destruct (cols (bc b) "step_times")|]; inversion H; subst; reflexivity.
    + intros b e b' e' r H. inversion H; subst. split; reflexivity.
    + eapply col_post_step_neutral with (c' := "step_times") (v := fun e => VNum (Z.of_nat e)); [discriminate|reflexivity].
  - intros s f H. cbn [p_step ex_pr] in H.
    assert (Q : (exists v, f = ex_assign v) \/ f = (fun b e => (b, e, Some RuntimeError))).
    { destruct s; cbn in H; inversion H; eauto. }
    destruct Q as [[v ->]| ->].
    + split; [|split]; intros b e b' e' r E; inversion E; subst; try (split; [reflexivity|]); reflexivity.
    + split; [|split]; intros b e b' e' r E; inversion E; subst; try (split; [reflexivity|]); reflexivity.
Qed.
Example column_case :
  match evolve (ex_pr ex_flow 10) 20 (ex_world false) with
  | Some (w', r) => r = None
      /\ cols (bc (wb w')) "step_names" = Some [VStr "initial_cond"; VStr "step_detached"; VStr "step_end"]
      /\ hist (bc (wb w')) "event" = [VStr "ZAMS"; VNone; VStr "END"]
      /\ posted 0 (wlog w') = [step_detached; step_end]
  | None => False end.
Proof. vm_compute. repeat split. Qed.
Example trim_case :
  exists b l, cols (bc b) "step_names" = Some l /\ n_rows b <= length l /\ 2 <= n_rows b.
Proof.
  exists (with_bc (append_state (ex_binary true))
           (set_col (bc (append_state (ex_binary true))) "step_names" (repeat VNone 4))), (repeat VNone 4).
  vm_compute. repeat split; lia.
Qed.

(** ** C11 *)
Theorem existence_codes : forall c1 c2,
  let '(e1, e2, code) := check_who_exists c1 c2 in
  (e1 = true <-> exists v, c1 = Some v /\ v <> VStr "massless_remnant")
  /\ (e2 = true <-> exists v, c2 = Some v /\ v <> VStr "massless_remnant")
  /\ (code = 0%Z <-> e1 = true /\ e2 = true) /\ (code = 1%Z <-> e1 = false /\ e2 = true)
  /\ (code = 2%Z <-> e1 = true /\ e2 = false) /\ (code = (-1)%Z <-> e1 = false /\ e2 = false).
Proof. exact who_codes. Qed.
Theorem existence_codes_mirror : forall c1 c2 e1 e2 k f1 f2 k',
  check_who_exists c1 c2 = (e1, e2, k) -> check_who_exists c2 c1 = (f1, f2, k') ->
  f1 = e2 /\ f2 = e1 /\ (k = 1%Z <-> k' = 2%Z) /\ (k = 2%Z <-> k' = 1%Z)
  /\ (k = 0%Z <-> k' = 0%Z) /\ (k = (-1)%Z <-> k' = (-1)%Z).
Proof. exact who_mirror. Qed.
Theorem switch_star_exchanges : forall b,
  st1 (switch_star b) = st2 b /\ st2 (switch_star b) = st1 b /\ bc (switch_star b) = bc b
  /\ switch_star (switch_star b) = b.
Proof. intro b. repeat split. apply switch_involution. Qed.
Example existence_case :
  check_who_exists (Some (VStr "BH")) (Some (VStr "massless_remnant")) = (true, false, 2%Z)
  /\ check_who_exists None (Some (VStr "NS")) = (false, true, 1%Z).
Proof. repeat split. Qed.

(** ** C12 *)
Theorem flip_stars_involution : forall b,
  (forall p, cur (bc (flip_stars (flip_stars b))) p = cur (bc b) p)
  /\ (forall p, hist (bc (flip_stars (flip_stars b))) p = hist (bc b) p)
  /\ st1 (flip_stars (flip_stars b)) = st1 b /\ st2 (flip_stars (flip_stars b)) = st2 b
  /\ cols (bc (flip_stars (flip_stars b))) = cols (bc b).
Proof. exact flip_involution. Qed.

Theorem flip_stars_exchanges : forall b,
  st1 (flip_stars b) = st2 b /\ st2 (flip_stars b) = st1 b
  /\ (forall p q, In (p, q) [("t_sync_rad_1", "t_sync_rad_2"); ("t_sync_conv_1", "t_sync_conv_2");
                             ("rl_relative_overflow_1", "rl_relative_overflow_2")] ->
        cur (bc (flip_stars b)) p = cur (bc b) q /\ cur (bc (flip_stars b)) q = cur (bc b) p
        /\ hist (bc (flip_stars b)) p = hist (bc b) q /\ hist (bc (flip_stars b)) q = hist (bc b) p)
  /\ (forall p, In p ["time"; "separation"; "orbital_period"; "eccentricity"; "V_sys";
                      "lg_mtransfer_rate"; "mass_transfer_case"; "trap_radius"; "acc_radius";
                      "nearest_neighbour_distance"] ->
        cur (bc (flip_stars b)) p = cur (bc b) p /\ hist (bc (flip_stars b)) p = hist (bc b) p).
Proof.
  intro b. split; [reflexivity|]. split; [reflexivity|]. split.
  - intros p q [H|[H|[H|[]]]]; inversion H; subst; rewrite !flip_cur, !flip_hist; cbn; rewrite !map_id; auto.
  - intros p H. rewrite flip_cur, flip_hist.
    assert (E : flip_name p = p /\ String.eqb p "state" = false /\ String.eqb p "event" = false).
    { cbn in H. repeat (destruct H as [<-|H]; [repeat split|]). destruct H. }
    destruct E as (-> & E1 & E2). unfold flip_val. rewrite E1, E2. split; [reflexivity|apply map_id].
Qed.

(** The total state is mirrored exactly when the event is not one of the labelled events
    that the function forgets. *)
Theorem flip_stars_mirrors_total_state : forall b,
  total_state (flip_stars b) = mirror_key (total_state b)
  <-> ~ In (parse_event (b_event b)) [oDoubleCE1; oDoubleCE2; oMerging1; oMerging2; Match1; Match2].
Proof.
  intro b. rewrite flip_total_state. destruct (parse_event (b_event b)); cbn; split; intro H;
    try discriminate; try (exfalso; apply H; tauto); try reflexivity; intuition discriminate.
Qed.
Theorem flip_stars_same_next_step : forall b,
  ~ In (parse_event (b_event b)) [oDoubleCE1; oDoubleCE2; oMerging1; oMerging2; Match1; Match2] ->
  label_dependent (total_state b) = false ->
  chart_get POSYDON_FLOW_CHART (total_state (flip_stars b))
  = chart_get POSYDON_FLOW_CHART (total_state b).
Proof.
  intros b H L. apply flip_stars_mirrors_total_state in H. rewrite H. apply mirror_iff. exact L.
Qed.

(** A double common envelope triggered by star 1 has a next step; after flip_stars it has none. *)
Definition ex_double_CE : binary :=
  new_binary (fun p => if String.eqb p "event" then VStr "oDoubleCE1" else if String.eqb p "state" then VStr "RLO1" else VNone)
    (ex_vals "H-rich_Core_He_burning") (ex_vals "H-rich_Core_He_burning") false.
Theorem flip_stars_next_step_refuted : exists b,
  chart_get POSYDON_FLOW_CHART (total_state b) = Some step_CE
  /\ chart_get POSYDON_FLOW_CHART (total_state (flip_stars b)) = None.
Proof.
  exists ex_double_CE.
  replace (total_state ex_double_CE)
    with (Key HR_Core_He_burning HR_Core_He_burning RLO1 oDoubleCE1) by (vm_compute; reflexivity).
  replace (total_state (flip_stars ex_double_CE))
    with (Key HR_Core_He_burning HR_Core_He_burning RLO2 oDoubleCE1) by (vm_compute; reflexivity).
  rewrite !chart_is_spec. split; reflexivity.
Qed.
Example flip_case :
  let b := new_binary (fun p => if String.eqb p "event" then VStr "oRLO1" else if String.eqb p "state" then VStr "RLO1" else VNone)
             (ex_vals "H-rich_Core_H_burning") (ex_vals "BH") false in
  total_state (flip_stars b) = Key BH HR_Core_H_burning RLO2 oRLO2
  /\ label_dependent (total_state b) = false /\ parse_event (b_event b) = oRLO1.
Proof. vm_compute. repeat split. Qed.

Print Assumptions evolve_runs_bounded_steps.
Print Assumptions evolve_with_limit_terminates.
Print Assumptions evolve_returns_when_stopped.
Print Assumptions evolve_disarms_alarm.
Print Assumptions post_evolve_runs_once.
Print Assumptions histories_stay_aligned.
Print Assumptions assigning_callables_are_well_behaved.
Print Assumptions append_records_current_values.
Print Assumptions redirects_add_no_row.
Print Assumptions restore_returns_to_record.
Print Assumptions restore_negative_index.
Print Assumptions restore_last_empties_histories.
Print Assumptions restore_out_of_range.
Print Assumptions restore_compositional.
Print Assumptions restore_missing_column_refuted.
Print Assumptions hooks_nest_around_steps.
Print Assumptions hooks_nest_around_one_step.
Print Assumptions hook_column_one_entry_per_row.
Print Assumptions hook_column_fits_at_end.
Print Assumptions step_names_column_contents.
Print Assumptions restore_keeps_hook_column.
Print Assumptions timing_hooks_keep_a_column.
Print Assumptions step_names_hooks_keep_a_column.
Print Assumptions hook_column_trim_refuted.
Print Assumptions existence_codes.
Print Assumptions existence_codes_mirror.
Print Assumptions switch_star_exchanges.
Print Assumptions flip_stars_involution.
Print Assumptions flip_stars_exchanges.
Print Assumptions flip_stars_mirrors_total_state.
Print Assumptions flip_stars_same_next_step.
Print Assumptions flip_stars_next_step_refuted.
