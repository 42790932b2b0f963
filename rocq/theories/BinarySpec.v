(** Specifications for the evolution loop and the history bookkeeping: the language of call
    logs, alignment of histories, and what "the i-th record" means. *)
From Coq Require Import String List Bool ZArith Lia.
From Verif Require Import PyBase FlowChartModel BinaryModel.
Import ListNotations.
Open Scope string_scope.
Open Scope list_scope.

(** ** Call logs *)

(** The callees of a phase: registered hooks in order, then the extra function if present. *)
Definition ids (n : nat) (has_extra : bool) : list hook_id :=
  map HookNo (seq 0 n) ++ (if has_extra then [ExtraFn] else []).
Definition present {A} (o : option A) : bool := match o with Some _ => true | None => false end.

(** Every call succeeded. *)
Definition all_ok (cs : list callee) : list entry := map (fun c => ECall c None) cs.
(** The calls succeeded up to one that raised [e]; nothing was called afterwards. *)
Definition stops_at (cs : list callee) (l : list entry) (e : exn) : Prop :=
  exists before c after, cs = before ++ c :: after /\ l = all_ok before ++ [ECall c (Some e)].

Section Trace.
  Context {Ext : Type} (pr : properties Ext).
  Definition n_hooks := length (p_hooks pr).
  Definition pre_evolves := map PreEvolve (ids n_hooks (present (p_extra_pre_evolve pr))).
  Definition pre_steps s := map (fun h => PreStep h s) (ids n_hooks (present (p_extra_pre_step pr))).
  Definition post_steps s := map (fun h => PostStep h s) (ids n_hooks (present (p_extra_post_step pr))).
  Definition post_evolves := map PostEvolve (ids n_hooks (present (p_extra_post_evolve pr))).

  (** One executed step: the flow chose [bl_step] for the total state [bl_key]; the step left
      the event [bl_event] on a binary with verbosity [bl_verbose]. *)
  Record block := Block { bl_key : key; bl_step : step_name; bl_verbose : bool; bl_event : val }.
  (** Redirections are events whose name contains "redirect". *)
  Definition is_redirect (v : val) : Prop :=
    exists a b, v = VStr (a ++ "redirect" ++ b)%string.
  Definition hidden (vb : bool) (ev : val) : Prop := vb = false /\ is_redirect ev.
  Definition up_to_step (s : step_name) : list callee := pre_steps s ++ [Step s].
  Definition chosen (k : key) (s : step_name) : Prop :=
    ~ In k UNDEFINED_STATES /\ p_flow pr k = Some s /\ p_step pr s <> None.
  (** The log of an executed step: post-step hooks run exactly when it is not hidden. *)
  Inductive block_log (b : block) : list entry -> Prop :=
  | block_hidden : hidden (bl_verbose b) (bl_event b) ->
      block_log b (EAlarm 120 :: EChoose (bl_key b) (bl_step b) :: all_ok (up_to_step (bl_step b))
                   ++ [EDone (bl_verbose b) (bl_event b)])
  | block_shown : ~ hidden (bl_verbose b) (bl_event b) ->
      block_log b (EAlarm 120 :: EChoose (bl_key b) (bl_step b) :: all_ok (up_to_step (bl_step b))
                   ++ [EDone (bl_verbose b) (bl_event b)] ++ all_ok (post_steps (bl_step b))).
  Inductive blocks_log : list block -> list entry -> Prop :=
  | blocks_nil : blocks_log [] []
  | blocks_cons : forall b bs l ls, chosen (bl_key b) (bl_step b) -> block_log b l ->
      blocks_log bs ls -> blocks_log (b :: bs) (l ++ ls).

  (** An interrupted step: no step could be chosen, or a hook or the step itself raised, or a
      hook after the (recorded) step raised. *)
  Inductive broken_step : list entry -> exn -> Prop :=
  | broken_flow : forall e, e = FlowError \/ e = ValueError -> broken_step [] e
  | broken_before : forall k s l e, chosen k s -> stops_at (up_to_step s) l e ->
      broken_step (EChoose k s :: l) e
  | broken_after : forall k s vb ev l e, chosen k s -> ~ hidden vb ev -> stops_at (post_steps s) l e ->
      broken_step (EChoose k s :: all_ok (up_to_step s) ++ [EDone vb ev] ++ l) e.

  (** The logs an evolution may leave, with its outcome. *)
  Inductive evolution_log : list entry -> option exn -> Prop :=
  | log_normal : forall bs ls, blocks_log bs ls ->
      evolution_log (all_ok pre_evolves ++ ls ++ [EAlarm 0] ++ all_ok post_evolves) None
  | log_pre_evolve_raises : forall l e, stops_at pre_evolves l e -> evolution_log l (Some e)
  | log_birth : forall e, e = ValueError \/ e = TypeError ->
      evolution_log (all_ok pre_evolves) (Some e)
  | log_step_raises : forall bs ls l e, blocks_log bs ls -> broken_step l e ->
      evolution_log (all_ok pre_evolves ++ ls ++ (EAlarm 120 :: l) ++ [EAlarm 0]) (Some e)
  | log_too_many : forall bs ls m, blocks_log bs ls -> p_max_n pr = Some m ->
      (m < Z.of_nat (length bs))%Z -> bs <> [] ->
      evolution_log (all_ok pre_evolves ++ ls ++ [EAlarm 0]) (Some RuntimeError)
  | log_post_evolve_raises : forall bs ls l e, blocks_log bs ls -> stops_at post_evolves l e ->
      evolution_log (all_ok pre_evolves ++ ls ++ [EAlarm 0] ++ l) (Some e).
End Trace.

(** The binary is in a situation in which evolution stops. *)
Definition stopped {Ext} (pr : properties Ext) (b : binary) : Prop :=
  b_event b = VStr "END" \/ b_event b = VStr "FAILED"
  \/ In (b_event b) (p_end_events pr) \/ In (b_state b) (p_end_states pr).

(** Number of step functions called. *)
Fixpoint steps_in (l : list entry) : nat :=
  match l with
  | [] => 0
  | ECall (Step _) _ :: l' => S (steps_in l')
  | _ :: l' => steps_in l'
  end.
Fixpoint post_evolves_in (l : list entry) : nat :=
  match l with
  | [] => 0
  | ECall (PostEvolve _) _ :: l' => S (post_evolves_in l')
  | _ :: l' => post_evolves_in l'
  end.

(** Every step call happens while the alarm is armed: the last alarm setting before it is
    positive. *)
Fixpoint armed_when_stepping (alarm : Z) (l : list entry) : Prop :=
  match l with
  | [] => True
  | EAlarm z :: l' => armed_when_stepping z l'
  | ECall (Step _) _ :: l' => (alarm > 0)%Z /\ armed_when_stepping alarm l'
  | _ :: l' => armed_when_stepping alarm l'
  end.

(** ** Histories *)

(** All properties of a component have exactly [n] records. *)
Definition comp_rows (props : list string) (n : nat) (c : comp) : Prop :=
  forall p, In p props -> length (hist c p) = n.
Definition rows (n : nat) (b : binary) : Prop :=
  comp_rows BINARYPROPERTIES n (bc b) /\ comp_rows STARPROPERTIES n (st1 b)
  /\ comp_rows STARPROPERTIES n (st2 b).

(** The current values are record [i] of the histories of [b0]. *)
Definition comp_is_record (props : list string) (i : nat) (c0 c : comp) : Prop :=
  forall p, In p props -> nth_error (hist c0 p) i = Some (cur c p).
Definition comp_keeps (props : list string) (n : nat) (c0 c : comp) : Prop :=
  forall p, In p props -> hist c p = firstn n (hist c0 p).
Definition is_record (i : nat) (b0 b : binary) : Prop :=
  comp_is_record BINARYPROPERTIES i (bc b0) (bc b)
  /\ comp_is_record STARPROPERTIES i (st1 b0) (st1 b)
  /\ comp_is_record STARPROPERTIES i (st2 b0) (st2 b).
Definition keeps (n : nat) (b0 b : binary) : Prop :=
  comp_keeps BINARYPROPERTIES n (bc b0) (bc b)
  /\ comp_keeps STARPROPERTIES n (st1 b0) (st1 b)
  /\ comp_keeps STARPROPERTIES n (st2 b0) (st2 b).

(** The binary grew by exactly one record equal to its current values. *)
Definition comp_grew (props : list string) (c0 c : comp) : Prop :=
  forall p, In p props -> cur c p = cur c0 p /\ hist c p = hist c0 p ++ [cur c0 p].
Definition grew (b0 b : binary) : Prop :=
  comp_grew BINARYPROPERTIES (bc b0) (bc b) /\ comp_grew STARPROPERTIES (st1 b0) (st1 b)
  /\ comp_grew STARPROPERTIES (st2 b0) (st2 b).

(** Agreement of two binaries on everything that restore/append handle. *)
Definition comp_same (props : list string) (c c' : comp) : Prop :=
  forall p, In p props -> cur c p = cur c' p /\ hist c p = hist c' p.
Definition same (b b' : binary) : Prop :=
  comp_same BINARYPROPERTIES (bc b) (bc b') /\ comp_same STARPROPERTIES (st1 b) (st1 b')
  /\ comp_same STARPROPERTIES (st2 b) (st2 b').

(** Python indices: [i] denotes record [pos n i] of [n]. *)
Definition pos (n : nat) (i : Z) : nat :=
  Z.to_nat (if (i <? 0)%Z then i + Z.of_nat n else i)%Z.
Definition valid_index (n : nat) (i : Z) : Prop := (- Z.of_nat n <= i < Z.of_nat n)%Z.

(** Hook columns declared by the properties are present on the binary and its stars. *)
Definition cols_present {Ext} (pr : properties Ext) (b : binary) : Prop :=
  (forall h p, In h (p_hooks pr) -> In p (h_binary_cols h) -> cols (bc b) p <> None)
  /\ (forall h p, In h (p_hooks pr) -> In p (h_star_cols h) ->
        cols (st1 b) p <> None /\ cols (st2 b) p <> None).

(** A callable that keeps the histories of a binary aligned, whatever else it does (setting
    current values, appending complete records, raising). *)
Definition keeps_rows {Ext} (a : actor Ext) : Prop :=
  forall b e b' e' r, a b e = (b', e', r) -> (exists n, rows n b) -> exists n, rows n b'.
Definition well_behaved {Ext} (pr : properties Ext) : Prop :=
  (forall s f, p_step pr s = Some f -> keeps_rows f)
  /\ (forall h, In h (p_hooks pr) -> keeps_rows (h_pre_evolve h) /\ keeps_rows (h_post_evolve h)
        /\ forall s, keeps_rows (h_pre_step h s) /\ keeps_rows (h_post_step h s))
  /\ (forall f, p_extra_pre_evolve pr = Some f -> keeps_rows f)
  /\ (forall f, p_extra_post_evolve pr = Some f -> keeps_rows f)
  /\ (forall f s, p_extra_pre_step pr = Some f -> keeps_rows (f s))
  /\ (forall f s, p_extra_post_step pr = Some f -> keeps_rows (f s)).

(** Callables that only assign current values (and private state). *)
Definition only_assigns {Ext} (a : actor Ext) : Prop :=
  forall b e b' e' r, a b e = (b', e', r) ->
    hist (bc b') = hist (bc b) /\ hist (st1 b') = hist (st1 b) /\ hist (st2 b') = hist (st2 b).

(** All worlds a user can reach from a new binary with the public operations, whether or
    not they raise.  restore() is used only when the declared hook columns exist. *)
Inductive session {Ext} (pr : properties Ext) : world Ext -> Prop :=
| ses_new : forall v v1 v2 vb e z, session pr (World (new_binary v v1 v2 vb) e z [])
| ses_run_step : forall w w' r, session pr w -> run_step pr w = (w', r) -> session pr w'
| ses_evolve : forall fuel w w' r, session pr w -> evolve pr fuel w = Some (w', r) -> session pr w'
| ses_append : forall w, session pr w ->
    session pr (World (append_state (wb w)) (we w) (walarm w) (wlog w))
| ses_restore : forall i w b' r, session pr w -> cols_present pr (wb w) ->
    restore pr i (wb w) = (b', r) -> session pr (World b' (we w) (walarm w) (wlog w))
| ses_switch : forall w, session pr w ->
    session pr (World (switch_star (wb w)) (we w) (walarm w) (wlog w))
| ses_flip : forall w, session pr w ->
    session pr (World (flip_stars (wb w)) (we w) (walarm w) (wlog w))
| ses_fail : forall w, session pr w ->
    session pr (World (set_binary_to_failed (wb w)) (we w) (walarm w) (wlog w)).

(** ** Hook columns *)

Definition n_rows (b : binary) : nat := length (hist (bc b) "event").
(** The column [c] has exactly one entry per history row. *)
Definition column_fits (c : string) (b : binary) : Prop :=
  exists l, cols (bc b) c = Some l /\ length l = n_rows b.
(** ... at most one entry per history row. *)
Definition column_short (c : string) (b : binary) : Prop :=
  exists l, cols (bc b) c = Some l /\ length l <= n_rows b.

(** Callables that touch neither the column nor the number of rows. *)
Definition neutral {Ext} (c : string) (a : actor Ext) : Prop :=
  forall b e b' e' r, a b e = (b', e', r) ->
    cols (bc b') c = cols (bc b) c /\ n_rows b' = n_rows b.
(** Steps may append rows of their own, but leave the column alone. *)
Definition extending {Ext} (c : string) (a : actor Ext) : Prop :=
  forall b e b' e' r, a b e = (b', e', r) ->
    cols (bc b') c = cols (bc b) c /\ n_rows b <= n_rows b'.
(** ... and add no row when they leave a redirection that is not recorded. *)
Definition tidy_redirects {Ext} (a : actor Ext) : Prop :=
  forall b e b' e' r, a b e = (b', e', r) ->
    hidden (verbose b') (b_event b') -> n_rows b' = n_rows b.
Definition keeps_event {Ext} (a : actor Ext) : Prop :=
  forall b e b' e' r, a b e = (b', e', r) -> b_event b' = b_event b.

(** A hook keeping the column [c], like the two built-in ones. *)
Definition column_hook {Ext} (c : string) (init : val) (entry_of : step_name -> Ext -> val)
    (h : hook Ext) : Prop :=
  (forall b e, h_pre_evolve h b e = (col_pre_evolve c init b, e, None))
  /\ (forall s, neutral c (h_pre_step h s))
  /\ (forall s b e, h_post_step h s b e = lift Ext (col_post_step c (entry_of s e)) b e)
  /\ (forall b e, h_post_evolve h b e = lift Ext (col_post_evolve c) b e).

(** Hook number [k] keeps column [c]; every other hook and extra function is neutral. *)
Definition column_setup {Ext} (pr : properties Ext) (k : nat) (c : string) (init : val)
    (entry_of : step_name -> Ext -> val) : Prop :=
  (exists h, nth_error (p_hooks pr) k = Some h /\ column_hook c init entry_of h)
  /\ (forall j h, j <> k -> nth_error (p_hooks pr) j = Some h ->
        neutral c (h_pre_evolve h) /\ (neutral c (h_post_evolve h) /\ keeps_event (h_post_evolve h))
        /\ forall s, neutral c (h_pre_step h s) /\ neutral c (h_post_step h s))
  /\ (forall f, p_extra_pre_evolve pr = Some f -> neutral c f)
  /\ (forall f, p_extra_post_evolve pr = Some f -> neutral c f /\ keeps_event f)
  /\ (forall f s, p_extra_pre_step pr = Some f -> neutral c (f s))
  /\ (forall f s, p_extra_post_step pr = Some f -> neutral c (f s)).

(** Steps after which hook [k] was called, in order. *)
Fixpoint posted (k : nat) (l : list entry) : list step_name :=
  match l with
  | [] => []
  | ECall (PostStep (HookNo j) s) None :: l' =>
      if Nat.eqb j k then s :: posted k l' else posted k l'
  | _ :: l' => posted k l'
  end.
