(** Model of BinaryStar/SingleStar bookkeeping (posydon/binary_evol/binarystar.py,
    singlestar.py) and of the hook machinery (simulationproperties.py). *)
From Coq Require Import String List Bool ZArith Lia.
From Verif Require Import PyBase FlowChartModel.
Import ListNotations.
Open Scope string_scope.
Open Scope list_scope.

(** Python values that occur as properties: None, strings, numbers (only compared, hence
    integers suffice), and any other object by identity. *)
Inductive val := VNone | VStr (s : string) | VNum (z : Z) | VObj (id : nat).

Definition val_eq_dec (x y : val) : {x = y} + {x <> y}.
Proof. decide equality; try apply string_dec; try apply Z.eq_dec; apply Nat.eq_dec. Defined.
Definition val_eqb x y := if val_eq_dec x y then true else false.

(** Python's [pat in s] for strings. *)
Fixpoint contains (pat s : string) : bool :=
  prefix pat s || match s with EmptyString => false | String _ s' => contains pat s' end.

(** ** Names (flow_chart.py:19-40, 137-173) *)
Definition star_name (s : star_state) : string :=
  match s with
  | WD => "WD" | NS => "NS" | BH => "BH" | massless_remnant => "massless_remnant"
  | HR_Core_H_burning => "H-rich_Core_H_burning" | HR_Core_He_burning => "H-rich_Core_He_burning"
  | HR_Shell_H_burning => "H-rich_Shell_H_burning" | HR_Core_He_depleted => "H-rich_Core_He_depleted"
  | HR_Shell_He_burning => "H-rich_Shell_He_burning" | HR_Core_C_burning => "H-rich_Core_C_burning"
  | HR_Core_C_depleted => "H-rich_Core_C_depleted" | HR_non_burning => "H-rich_non_burning"
  | acc_Core_H_burning => "accreted_He_Core_H_burning" | acc_Shell_H_burning => "accreted_He_Shell_H_burning"
  | acc_non_burning => "accreted_He_non_burning" | acc_Core_He_burning => "accreted_He_Core_He_burning"
  | str_Core_He_burning => "stripped_He_Core_He_burning" | str_Core_He_depleted => "stripped_He_Core_He_depleted"
  | str_Core_C_depleted => "stripped_He_Core_C_depleted" | str_non_burning => "stripped_He_non_burning"
  | SOther n => n
  end.
Definition bin_name (b : bin_state) : string :=
  match b with
  | initially_single_star => "initially_single_star" | detached => "detached" | RLO1 => "RLO1"
  | RLO2 => "RLO2" | contact => "contact" | disrupted => "disrupted" | merged => "merged"
  | initial_RLOF => "initial_RLOF" | BOther n => n
  end.
(** The Python value of an event. *)
Definition event_val (e : event) : val :=
  match e with
  | EvNone => VNone | CC1 => VStr "CC1" | CC2 => VStr "CC2" | ZAMS => VStr "ZAMS"
  | oRLO1 => VStr "oRLO1" | oRLO2 => VStr "oRLO2" | oCE1 => VStr "oCE1" | oCE2 => VStr "oCE2"
  | oDoubleCE1 => VStr "oDoubleCE1" | oDoubleCE2 => VStr "oDoubleCE2" | CO_contact => VStr "CO_contact"
  | redirect_from_ZAMS => VStr "redirect_from_ZAMS"
  | redirect_from_CO_HMS_RLO => VStr "redirect_from_CO_HMS_RLO"
  | redirect_from_CO_HeMS => VStr "redirect_from_CO_HeMS"
  | redirect_from_CO_HeMS_RLO => VStr "redirect_from_CO_HeMS_RLO"
  | MaxTime_exceeded => VStr "MaxTime_exceeded" | maxtime => VStr "maxtime"
  | oMerging1 => VStr "oMerging1" | oMerging2 => VStr "oMerging2"
  | Match1 => VStr "Match1" | Match2 => VStr "Match2" | Match12 => VStr "Match12"
  | EvEND => VStr "END" | EvFAILED => VStr "FAILED"
  | EOther n => VStr n
  end.

(** Reading a state back from a Python value.  Values that are not strings can never be
    a key of the chart and become an unknown name. *)
Definition parse_star (v : val) : star_state :=
  match v with
  | VStr s => match find (fun x => String.eqb (star_name x) s) STAR_STATES_ALL with
              | Some x => x | None => SOther s end
  | _ => SOther ""
  end.
Definition parse_bin (v : val) : bin_state :=
  match v with
  | VStr s => match find (fun x => String.eqb (bin_name x) s) BINARY_STATES_ALL with
              | Some x => x | None => BOther s end
  | _ => BOther ""
  end.
Definition parse_event (v : val) : event :=
  match v with
  | VNone => EvNone
  | VStr s => match find (fun x => val_eqb (event_val x) (VStr s)) (BINARY_EVENTS_ALL ++ [EvEND; EvFAILED]) with
              | Some x => x | None => EOther s end
  | _ => EOther ""
  end.

(** ** Components *)

(** singlestar.py:40-111 *)
Definition STARPROPERTIES : list string :=
  [ "state"; "metallicity"; "mass"; "log_R"; "log_L"; "lg_mdot"; "lg_system_mdot";
    "lg_wind_mdot"; "he_core_mass"; "he_core_radius"; "c_core_mass"; "c_core_radius";
    "o_core_mass"; "o_core_radius"; "co_core_mass"; "co_core_radius"; "center_h1";
    "center_he4"; "center_c12"; "center_n14"; "center_o16"; "surface_h1"; "surface_he4";
    "surface_c12"; "surface_n14"; "surface_o16"; "log_LH"; "log_LHe"; "log_LZ"; "log_Lnuc";
    "c12_c12"; "center_gamma"; "avg_c_in_c_core"; "surf_avg_omega";
    "surf_avg_omega_div_omega_crit"; "total_moment_of_inertia"; "log_total_angular_momentum";
    "spin"; "conv_env_top_mass"; "conv_env_bot_mass"; "conv_env_top_radius";
    "conv_env_bot_radius"; "conv_env_turnover_time_g"; "conv_env_turnover_time_l_b";
    "conv_env_turnover_time_l_t"; "envelope_binding_energy"; "mass_conv_reg_fortides";
    "thickness_conv_reg_fortides"; "radius_conv_reg_fortides"; "lambda_CE_1cent";
    "lambda_CE_10cent"; "lambda_CE_30cent"; "lambda_CE_pure_He_star_10cent"; "profile";
    "total_mass_h1"; "total_mass_he4" ].

(** binarystar.py:89-118 *)
Definition BINARYPROPERTIES : list string :=
  [ "state"; "event"; "time"; "separation"; "orbital_period"; "eccentricity"; "V_sys";
    "rl_relative_overflow_1"; "rl_relative_overflow_2"; "lg_mtransfer_rate";
    "mass_transfer_case"; "trap_radius"; "acc_radius"; "t_sync_rad_1"; "t_sync_conv_1";
    "t_sync_rad_2"; "t_sync_conv_2"; "nearest_neighbour_distance" ].

(** An object with current values, one history list per property, and extra (hook) columns
    that may be absent.  Attribute names are functions' arguments. *)
Record comp := Comp {
  cur : string -> val;
  hist : string -> list val;
  cols : string -> option (list val) }.

Definition upd {A} (f : string -> A) (p : string) (v : A) : string -> A :=
  fun q => if String.eqb q p then v else f q.
Definition set_cur (c : comp) p v := Comp (upd (cur c) p v) (hist c) (cols c).
Definition set_hist (c : comp) p l := Comp (cur c) (upd (hist c) p l) (cols c).
Definition set_col (c : comp) p l := Comp (cur c) (hist c) (upd (cols c) p (Some l)).

(** binarystar.py:166-184, singlestar.py:267-320: the construction sets every property and
    its one-element history (defaults are part of the arbitrary initial values). *)
Definition new_comp (props : list string) (v : string -> val) : comp :=
  fold_left (fun c p => set_hist (set_cur c p (v p)) p [v p]) props
    (Comp (fun _ => VNone) (fun _ => []) (fun _ => None)).

(** singlestar.py:383-386 and binarystar.py:308-310 *)
Definition append_comp (props : list string) (c : comp) : comp :=
  fold_left (fun c p => set_hist c p (hist c p ++ [cur c p])) props c.

(** singlestar.py:405-409, binarystar.py:367-371: stops with IndexError as soon as an index
    is out of range, leaving the earlier properties already restored. *)
Fixpoint restore_props (props : list string) (i : Z) (c : comp) : comp * option exn :=
  match props with
  | [] => (c, None)
  | p :: ps =>
      match py_nth (hist c p) i with
      | None => (c, Some IndexError)
      | Some v => restore_props ps i (set_hist (set_cur c p v) p (py_prefix (hist c p) (i + 1)))
      end
  end.

(** singlestar.py:411-418, binarystar.py:373-380: a missing column is an AttributeError. *)
Fixpoint restore_cols (names : list string) (i : Z) (c : comp) : comp * option exn :=
  match names with
  | [] => (c, None)
  | p :: ps =>
      match cols c p with
      | None => (c, Some AttributeError)
      | Some l => restore_cols ps i (set_col c p (py_prefix l (i + 1)))
      end
  end.

(** singlestar.py:388-418 for given column names. *)
Definition restore_comp (props names : list string) (i : Z) (c : comp) : comp * option exn :=
  match restore_props props i c with
  | (c1, Some e) => (c1, Some e)
  | (c1, None) => restore_cols names i c1
  end.

(** ** Binaries *)
Record binary := Binary {
  bc : comp;                 (* the binary's own properties *)
  st1 : comp; st2 : comp;    (* star_1, star_2 *)
  verbose : bool;            (* history_verbose *)
  companion1 : bool; companion2 : bool; nonexistent : Z }.

Definition with_bc b c := Binary c (st1 b) (st2 b) (verbose b) (companion1 b) (companion2 b) (nonexistent b).
Definition with_stars b x y := Binary (bc b) x y (verbose b) (companion1 b) (companion2 b) (nonexistent b).

Definition b_event (b : binary) : val := cur (bc b) "event".
Definition b_state (b : binary) : val := cur (bc b) "state".
Definition star_state_of (c : comp) : val := cur c "state".

(** binarystar.py:136-232 (companion flags, per-property histories); the optional
    derivation of separation/period is part of the arbitrary initial values [v]. *)
Definition new_binary (v v1 v2 : string -> val) (vb : bool) : binary :=
  Binary (new_comp BINARYPROPERTIES v) (new_comp STARPROPERTIES v1) (new_comp STARPROPERTIES v2)
    vb true true 0.

(** binarystar.py:288-290 *)
Definition total_state (b : binary) : key :=
  Key (parse_star (star_state_of (st1 b))) (parse_star (star_state_of (st2 b)))
      (parse_bin (b_state b)) (parse_event (b_event b)).

(** binarystar.py:304-306 and simulationproperties.py:797-799: a redirect that is not
    recorded.  Events are None or strings. *)
Definition redirecting (v : val) : bool :=
  match v with VStr s => contains "redirect" s | _ => false end.
Definition unrecorded (b : binary) : bool := negb (verbose b) && redirecting (b_event b).

(** binarystar.py:300-314 *)
Definition append_state (b : binary) : binary :=
  if unrecorded b then b
  else Binary (append_comp BINARYPROPERTIES (bc b)) (append_comp STARPROPERTIES (st1 b))
         (append_comp STARPROPERTIES (st2 b)) (verbose b) (companion1 b) (companion2 b) (nonexistent b).

(** binarystar.py:316-318 *)
Definition switch_star (b : binary) : binary := with_stars b (st2 b) (st1 b).

(** binarystar.py:341-355; a component may be None. *)
Definition component_exists (c : option val) : bool :=
  match c with None => false | Some v => negb (val_eqb v (VStr "massless_remnant")) end.
Definition who_code (e1 e2 : bool) : Z :=
  if e1 then (if e2 then 0 else 2) else (if e2 then 1 else -1).
Definition check_who_exists (c1 c2 : option val) : bool * bool * Z :=
  let e1 := component_exists c1 in let e2 := component_exists c2 in (e1, e2, who_code e1 e2).

(** ** Actors: steps, hooks, extra functions

    A user-supplied callable may change the binary and its own private state ([Ext]), and
    may raise after having done so. *)
Section Evolve.
  Variable Ext : Type.
  Definition actor := binary -> Ext -> binary * Ext * option exn.

  Record hook := Hook {
    h_pre_evolve : actor;
    h_pre_step : step_name -> actor;
    h_post_step : step_name -> actor;
    h_post_evolve : actor;
    h_binary_cols : list string;      (* extra_binary_col_names, [] when absent *)
    h_star_cols : list string }.      (* extra_star_col_names *)

  (** simulationproperties.py:50-225: what evolve() reads from SimulationProperties. *)
  Record properties := Properties {
    p_hooks : list hook;
    p_extra_pre_evolve : option actor;
    p_extra_pre_step : option (step_name -> actor);
    p_extra_post_step : option (step_name -> actor);
    p_extra_post_evolve : option actor;
    p_flow : key -> option step_name;
    p_step : step_name -> option actor;
    p_max_time : Z;
    p_max_n : option Z;
    p_end_events : list val;
    p_end_states : list val }.

  (** binarystar.py:357-384 *)
  Definition restore (pr : properties) (i : Z) (b : binary) : binary * option exn :=
    let bcols := flat_map h_binary_cols (p_hooks pr) in
    let scols := flat_map h_star_cols (p_hooks pr) in
    match restore_comp BINARYPROPERTIES bcols i (bc b) with
    | (c, Some e) => (with_bc b c, Some e)
    | (c, None) =>
        let b1 := with_bc b c in
        match restore_comp STARPROPERTIES scols i (st1 b1) with
        | (x, Some e) => (with_stars b1 x (st2 b1), Some e)
        | (x, None) =>
            let b2 := with_stars b1 x (st2 b1) in
            let '(y, r) := restore_comp STARPROPERTIES scols i (st2 b2) in
            (with_stars b2 (st1 b2) y, r)
        end
    end.

  (** Ghost log: calls made to user code with their outcome, alarm settings, choices, and
      after a completed step the history_verbose flag and event it left. *)
  Inductive hook_id := HookNo (n : nat) | ExtraFn.
  Inductive callee :=
  | PreEvolve (h : hook_id) | PreStep (h : hook_id) (s : step_name)
  | Step (s : step_name)
  | PostStep (h : hook_id) (s : step_name) | PostEvolve (h : hook_id).
  Inductive entry :=
  | ECall (c : callee) (r : option exn)
  | EAlarm (seconds : Z)
  | EChoose (k : key) (s : step_name)
  | EDone (vb : bool) (ev : val).

  Record world := World { wb : binary; we : Ext; walarm : Z; wlog : list entry }.

  Definition log (w : world) (x : entry) : world := World (wb w) (we w) (walarm w) (wlog w ++ [x]).
  Definition set_alarm (w : world) (z : Z) : world :=
    World (wb w) (we w) z (wlog w ++ [EAlarm z]).

  Definition call (c : callee) (a : actor) (w : world) : world * option exn :=
    let '(b, e, r) := a (wb w) (we w) in
    (World b e (walarm w) (wlog w ++ [ECall c r]), r).

  (** Calls in sequence until one raises. *)
  Fixpoint call_all (l : list (callee * actor)) (w : world) : world * option exn :=
    match l with
    | [] => (w, None)
    | (c, a) :: l' =>
        match call c a w with
        | (w', Some e) => (w', Some e)
        | (w', None) => call_all l' w'
        end
    end.

  Definition number {A B} (f : hook_id -> B) (g : A -> actor) (l : list A) : list (B * actor) :=
    map (fun nx => (f (HookNo (fst nx)), g (snd nx))) (combine (seq 0 (length l)) l).
  Definition extra {B} (f : hook_id -> B) (o : option actor) : list (B * actor) :=
    match o with None => [] | Some a => [(f ExtraFn, a)] end.

  (** simulationproperties.py:735-754 *)
  Definition pre_evolve_calls (pr : properties) :=
    number PreEvolve h_pre_evolve (p_hooks pr) ++ extra PreEvolve (p_extra_pre_evolve pr).
  (** simulationproperties.py:756-777 *)
  Definition pre_step_calls (pr : properties) (s : step_name) :=
    number (fun h => PreStep h s) (fun x => h_pre_step x s) (p_hooks pr)
    ++ extra (fun h => PreStep h s) (option_map (fun f => f s) (p_extra_pre_step pr)).
  (** simulationproperties.py:779-805 *)
  Definition post_step_calls (pr : properties) (s : step_name) :=
    number (fun h => PostStep h s) (fun x => h_post_step x s) (p_hooks pr)
    ++ extra (fun h => PostStep h s) (option_map (fun f => f s) (p_extra_post_step pr)).
  Definition post_step (pr : properties) (s : step_name) (w : world) : world * option exn :=
    if unrecorded (wb w) then (w, None) else call_all (post_step_calls pr s) w.
  (** simulationproperties.py:807-828 *)
  Definition post_evolve_calls (pr : properties) :=
    number PostEvolve h_post_evolve (p_hooks pr) ++ extra PostEvolve (p_extra_post_evolve pr).

  (** binarystar.py:267-286 *)
  Definition run_step (pr : properties) (w : world) : world * option exn :=
    let k := total_state (wb w) in
    if inb key_eqb k UNDEFINED_STATES then (w, Some FlowError)
    else match p_flow pr k with
    | None => (w, Some ValueError)
    | Some s =>
        match p_step pr s with
        | None => (w, Some ValueError)
        | Some f =>
            match call_all (pre_step_calls pr s) (log w (EChoose k s)) with
            | (w1, Some e) => (w1, Some e)
            | (w1, None) =>
                match call (Step s) f w1 with
                | (w2, Some e) => (w2, Some e)
                | (w2, None) =>
                    post_step pr s
                      (log (World (append_state (wb w2)) (we w2) (walarm w2) (wlog w2))
                           (EDone (verbose (wb w2)) (b_event (wb w2))))
                end
            end
        end
    end.

  (** binarystar.py:250-252, the negation of the while condition. *)
  Definition terminal (pr : properties) (b : binary) : bool :=
    val_eqb (b_event b) (VStr "END") || val_eqb (b_event b) (VStr "FAILED")
    || inb val_eqb (b_event b) (p_end_events pr) || inb val_eqb (b_state b) (p_end_states pr).

  (** binarystar.py:121 *)
  Definition MAXIMUM_STEP_TIME : Z := 120.

  (** binarystar.py:246-260: the loop; [None] means the fuel ran out before the loop ended. *)
  Fixpoint evolve_loop (pr : properties) (fuel : nat) (n : Z) (w : world)
    : option (world * option exn) :=
    match fuel with
    | O => None
    | S fuel' =>
        if terminal pr (wb w) then Some (w, None)
        else
          match run_step pr (set_alarm w MAXIMUM_STEP_TIME) with
          | (w1, Some e) => Some (w1, Some e)
          | (w1, None) =>
              let n1 := (n + 1)%Z in
              match p_max_n pr with
              | Some m => if (n1 >? m)%Z then Some (w1, Some RuntimeError)
                          else evolve_loop pr fuel' n1 w1
              | None => evolve_loop pr fuel' n1 w1
              end
          end
    end.

  (** binarystar.py:239-244: comparing a birth time that is not a number is a TypeError. *)
  Definition birth_check (pr : properties) (b : binary) : option exn :=
    match cur (bc b) "time" with
    | VNum t => if (t >? p_max_time pr)%Z then Some ValueError else None
    | _ => Some TypeError
    end.

  (** binarystar.py:234-265.  The SIGALRM handler raising inside a step is an instance of a
      raising step; a signal arriving between two Python statements of evolve() itself is
      not modelled. *)
  Definition evolve (pr : properties) (fuel : nat) (w : world) : option (world * option exn) :=
    match call_all (pre_evolve_calls pr) w with
    | (w1, Some e) => Some (w1, Some e)
    | (w1, None) =>
        match birth_check pr (wb w1) with
        | Some e => Some (w1, Some e)
        | None =>
            match evolve_loop pr fuel 0 w1 with
            | None => None
            | Some (w2, Some e) => Some (set_alarm w2 0, Some e)
            | Some (w2, None) => Some (call_all (post_evolve_calls pr) (set_alarm w2 0))
            end
        end
    end.
End Evolve.

Arguments Properties {Ext}. Arguments p_hooks {Ext}. Arguments p_flow {Ext}.
Arguments p_step {Ext}. Arguments p_max_time {Ext}. Arguments p_max_n {Ext}.
Arguments p_end_events {Ext}. Arguments p_end_states {Ext}.
Arguments p_extra_pre_evolve {Ext}. Arguments p_extra_pre_step {Ext}.
Arguments p_extra_post_step {Ext}. Arguments p_extra_post_evolve {Ext}.
Arguments Hook {Ext}. Arguments h_pre_evolve {Ext}. Arguments h_pre_step {Ext}.
Arguments h_post_step {Ext}. Arguments h_post_evolve {Ext}. Arguments h_binary_cols {Ext}.
Arguments h_star_cols {Ext}.
Arguments World {Ext}. Arguments wb {Ext}. Arguments we {Ext}. Arguments walarm {Ext}.
Arguments wlog {Ext}. Arguments log {Ext}. Arguments set_alarm {Ext}. Arguments call {Ext}.
Arguments call_all {Ext}. Arguments pre_evolve_calls {Ext}. Arguments pre_step_calls {Ext}.
Arguments post_step_calls {Ext}. Arguments post_step {Ext}. Arguments post_evolve_calls {Ext}.
Arguments run_step {Ext}. Arguments terminal {Ext}. Arguments evolve_loop {Ext}.
Arguments birth_check {Ext}. Arguments evolve {Ext}. Arguments restore {Ext}.
Arguments number {Ext A B}. Arguments extra {Ext B}.

(** ** The two built-in hooks (simulationproperties.py:861-944)

    Clock readings are an arbitrary function of the private state; recorded durations are
    opaque values. *)
Section BuiltinHooks.
  Variable Ext : Type.
  Variable duration : Ext -> val.       (* time.time() - self.step_start_time *)
  Variable tick : Ext -> Ext.           (* recording step_start_time *)

  (** 881-899 and 924-940: common part of post_step.  [cname] is the column. *)
  Definition col_post_step (cname : string) (v : val) (b : binary) : option binary :=
    match cols (bc b) cname with
    | None => None                                     (* AttributeError *)
    | Some l0 =>
        let l := l0 ++ [v] in
        let h := Z.of_nat (length (hist (bc b) "event")) in
        let n := Z.of_nat (length l) in
        let l1 := if (h >? n)%Z then l ++ repeat VNone (Z.to_nat (h - n))
                  else if (h <? n)%Z then py_suffix l (- (h - 1))
                  else l in
        Some (with_bc b (set_col (bc b) cname l1))
    end.

  (** 869-872, 912-915 *)
  Definition col_pre_evolve (cname : string) (v : val) (b : binary) : binary :=
    match cols (bc b) cname with
    | None => with_bc b (set_col (bc b) cname [v])
    | Some _ => b
    end.

  (** 896-901, 939-944: a negative difference pads nothing. *)
  Definition col_post_evolve (cname : string) (b : binary) : option binary :=
    if val_eqb (b_event b) (VStr "END") || val_eqb (b_event b) (VStr "FAILED") then
      match cols (bc b) cname with
      | None => None
      | Some l =>
          Some (with_bc b (set_col (bc b) cname
            (l ++ repeat VNone (Z.to_nat (Z.of_nat (length (hist (bc b) "event")) - Z.of_nat (length l))))))
      end
    else Some b.

  Definition lift (f : binary -> option binary) : actor Ext :=
    fun b e => match f b with Some b' => (b', e, None) | None => (b, e, Some AttributeError) end.

  Definition TimingHooks : hook Ext :=
    Hook (fun b e => (col_pre_evolve "step_times" (VNum 0) b, e, None))
         (fun _ b e => (b, tick e, None))
         (fun _ b e => lift (col_post_step "step_times" (duration e)) b e)
         (lift (col_post_evolve "step_times"))
         [ "step_times" ] [].

  Definition step_val (s : step_name) : val :=
    match s with
    | step_HMS_HMS => VStr "step_HMS_HMS" | step_detached => VStr "step_detached"
    | step_CO_HMS_RLO => VStr "step_CO_HMS_RLO" | step_CO_HeMS => VStr "step_CO_HeMS"
    | step_CO_HeMS_RLO => VStr "step_CO_HeMS_RLO" | step_merged => VStr "step_merged"
    | step_CE => VStr "step_CE" | step_SN => VStr "step_SN" | step_dco => VStr "step_dco"
    | step_end => VStr "step_end" | step_initially_single => VStr "step_initially_single"
    | step_disrupted => VStr "step_disrupted" | step_HMS_HMS_RLO => VStr "step_HMS_HMS_RLO"
    | StOther n => VStr n
    end.

  Definition StepNamesHooks : hook Ext :=
    Hook (fun b e => (col_pre_evolve "step_names" (VStr "initial_cond") b, e, None))
         (fun _ b e => (b, e, None))
         (fun s => lift (col_post_step "step_names" (step_val s)))
         (lift (col_post_evolve "step_names"))
         [ "step_names" ] [].
End BuiltinHooks.

(** ** flip_stars (posydon/utils/common_functions.py:1391-1461) *)

Definition flip_state_val (v : val) : val :=
  if val_eqb v (VStr "RLO1") then VStr "RLO2"
  else if val_eqb v (VStr "RLO2") then VStr "RLO1" else v.
(** 1417-1429: three independent if/elif chains on the original value. *)
Definition flip_event_val (v : val) : val :=
  if val_eqb v (VStr "CC1") then VStr "CC2"
  else if val_eqb v (VStr "CC2") then VStr "CC1"
  else if val_eqb v (VStr "oCE1") then VStr "oCE2"
  else if val_eqb v (VStr "oCE2") then VStr "oCE1"
  else if val_eqb v (VStr "oRLO1") then VStr "oRLO2"
  else if val_eqb v (VStr "oRLO2") then VStr "oRLO1" else v.

(** 1449-1461: exchange of the numbered quantities, current values and histories. *)
Definition swap_props (p1 p2 : string) (c : comp) : comp :=
  let v1 := cur c p1 in let v2 := cur c p2 in
  let h1 := hist c p1 in let h2 := hist c p2 in
  set_hist (set_hist (set_cur (set_cur c p1 v2) p2 v1) p1 h2) p2 h1.

(** The stars are shallow copies (1404-1407): same values and history lists.  The masked
    numpy assignments on the histories (1431-1447) exchange the names elementwise; all
    exchanged names have equal length, so numpy's fixed string width cannot truncate. *)
Definition flip_stars (b : binary) : binary :=
  let c0 := bc b in
  let c1 := set_cur c0 "state" (flip_state_val (cur c0 "state")) in
  let c2 := set_cur c1 "event" (flip_event_val (cur c1 "event")) in
  let c3 := set_hist c2 "state" (map flip_state_val (hist c2 "state")) in
  let c4 := set_hist c3 "event" (map flip_event_val (hist c3 "event")) in
  let c5 := swap_props "t_sync_rad_1" "t_sync_rad_2" c4 in
  let c6 := swap_props "t_sync_conv_1" "t_sync_conv_2" c5 in
  let c7 := swap_props "rl_relative_overflow_1" "rl_relative_overflow_2" c6 in
  with_stars (with_bc b c7) (st2 b) (st1 b).

(** common_functions.py:1464-1474 *)
Definition set_binary_to_failed (b : binary) : binary :=
  append_state (with_bc b (set_cur (set_cur (bc b) "state" (VStr "ERR")) "event" (VStr "FAILED"))).
