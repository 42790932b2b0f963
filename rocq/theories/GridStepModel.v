(** Model of how the steps with a grid of MESA models follow the nearest track and stop: posydon/binary_evol/MESA/step_mesa.py,
    [MesaGridStep.__call__] (358-442), [step] (444-462), [update_properties_NN] (473-877), [stop_at_end] (1056-1086),
    [stop_at_condition] (1088-1257) and [interpolate_at_t] (1259-1288).

    A binary is its time and a list of the other properties of the binary and of both stars, each with its history.  Numbers are rationals
    (rounding is not modelled).  The exchange of the stars before and after the step (common_functions.flip_stars) is in [BinaryModel]; the
    classification of a row into states and mass-transfer cases is a parameter; the values of rates of accretion are in [BHModel].
    Components of properties that are lists (V_sys) count as separate properties. *)
From Coq Require Import String List Bool QArith Arith.
From Verif Require Import PyBase.
Import ListNotations.
Open Scope string_scope.
Open Scope nat_scope.
Open Scope list_scope.

Inductive val := Num (q : Q) | NoneV | NaNV | Text (s : string).
Definition UnboundLocalError := OtherError "UnboundLocalError".

(** ** The nearest track *)
(** What update_properties_NN does with a property, by the branches of 531-574 and 583-714; columns are those of the nearest MESA run. *)
Inductive source :=
| Column (c : list val)        (* 566-574; 594-603, 617-627, 641-650, 701-707: a column of the binary history; 651-693: spin and radius of a compact
                                  object, computed from each mass of the binary history *)
| StarColumn (c : list val)    (* 630-639: a column of the history of the star *)
| Value (v : val)              (* 550-556: nearest_neighbour_distance *)
| LastRow                      (* 557-563: eccentricity, V_sys *)
| Same                         (* 604-610, 694-700: metallicity; 710-714: other properties of a compact object *)
| Nothing (v : val)            (* 588-593: avg_c_in_c_core, [v] = None; 611-616: profile, [v] the final one *)
| State (row : nat -> val) (now : val)   (* 727-737, 745-803: state, event, mass_transfer_case; [row i] is the class of row [i] of the histories *)
| Late (c : list val).         (* 814-851: lg_mdot of a compact object, after everything else; [c] the rates of the rows *)

(** How stop_at_condition treats it (1141, 1161): interpolated, or copied from the last row; of the latter those that are inferred again
    after flushing (1246-1257). *)
Inductive treatment := Interpolated | Copied | Inferred (again : val).
Record prop := Prop_ { src : source; treat : treatment; hist : list val; cur : val }.
Record binary := Binary { times : list Q; now : Q; props : list prop }.

(** The run found by _psyTrackInterp.evaluate: the ages of its binary history, and the number of rows of the history of star 1. *)
Record run := Run { ages : list Q; star_rows : nat }.
(** [track]: track_interpolation; [save]: save_initial_conditions; [flush]: flush_history. *)
Record nn := NN { track : bool; save : bool; flush : bool }.

(** numpy's [c[:-1]] is [removelast], [l[i]] is [nth_error] *)
Definition at_index {A} (l : list A) (i : nat) : result A := match nth_error l i with Some x => Ok x | None => Raise IndexError end.
Definition last_of {A} (l : list A) : result A := match rev l with x :: _ => Ok x | [] => Raise IndexError end.

Definition binary_rows (r : run) : nat := length (ages r) - 1.          (* 514 *)
Definition shared_rows (r : run) : nat := Nat.min (binary_rows r) (star_rows r - 1).   (* 515-516 *)
Definition mismatch (r : run) : bool := negb (binary_rows r =? star_rows r - 1).         (* 519 *)

(** The first row and the rows appended with save_initial_conditions and track_interpolation, and the new current value; [len] is the length of
    the histories before (513).  In the case of unequal histories [row] is applied to the same numbers as for equal ones. *)
Definition rows (s : nn) (r : run) (len : nat) (p : prop) : result (val * list val * val) :=
  let n := shared_rows r in
  let of_column c := rbind (last_of c) (fun v => rbind (at_index (removelast c) 0) (fun f => Ok (f, removelast c, v))) in
  let repeated x v := rbind (at_index (repeat x n) 0) (fun f => Ok (f, repeat x n, v)) in
  match src p with
  | Column c => of_column c
  | StarColumn c => of_column c
  | Value v => Ok (v, repeat v n, v)
  | LastRow => rbind (last_of (hist p)) (fun v => Ok (v, repeat v n, v))
  | Same => Ok (cur p, repeat (cur p) n, cur p)
  | Nothing v => repeated NoneV v
  | State row v => Ok (row len, if flush s then repeat NoneV n else map (fun j => row (len + Nat.b2n (save s) + j)) (seq 0 n), v)
  | Late c => of_column c
  end.
(** 575-581 and 717-724: with unequal histories NaN is appended; the number for a star is that of the last property of the binary
    (nearest_neighbour_distance, 578 with 554-556). *)
Definition real_rows (r : run) : nat := Nat.max (binary_rows r) (star_rows r - 1).
Definition padding (s : nn) (r : run) (len : nat) (p : prop) (h : list val) : list val :=
  if track s && mismatch r then
    match src p with
    | State _ _ | Late _ => []
    | StarColumn _ | Same | Nothing _ =>
        if length h <? real_rows r + len then repeat NaNV (real_rows r - shared_rows r - Nat.b2n (save s)) else []
    | _ => repeat NaNV (real_rows r + len - length h)
    end
  else [].
Definition update_prop (s : nn) (r : run) (len : nat) (p : prop) : result prop :=
  rbind (rows s r len p) (fun '(f, l, v) =>
  let h := hist p ++ (if save s then [f] else []) ++ (if track s then l else []) in
  Ok (Prop_ (src p) (treat p) (h ++ padding s r len p h) v)).
(** 540-549 and 575-581 for the time; the padding would be NaN, for which there is no time: such runs are refused here with [NaN]. *)
Definition update_time (s : nn) (r : run) (b : binary) : result (list Q * Q) :=
  rbind (last_of (ages r)) (fun e => rbind (at_index (ages r) 0) (fun f =>
  let add x := Qplus (now b) x in
  let h := times b ++ (if save s then [add f] else []) ++ (if track s then map add (removelast (ages r)) else []) in
  if track s && mismatch r && (length h <? real_rows r + length (times b)) then Raise (OtherError "NaN") else Ok (h, add e))).

Fixpoint each {A B} (f : A -> result B) (l : list A) : result (list B) :=
  match l with [] => Ok [] | x :: l' => rbind (f x) (fun y => rbind (each f l') (fun ys => Ok (y :: ys))) end.

(** 473-877.  Without track_interpolation and save_initial_conditions [length_hist] is not assigned (512-516) but used (533).  The first branches
    (496-510, runs of one row and initial overflow) change only state, event and mass-transfer case and are not included. *)
Definition update_NN (s : nn) (r : run) (b : binary) : result binary :=
  if negb (track s || save s) then Raise UnboundLocalError
  else rbind (update_time s r b) (fun '(h, t) => rbind (each (update_prop s r (length (times b))) (props b)) (fun ps => Ok (Binary h t ps))).
(** 777-782 and 789-794 *)
Definition flush_entries (s : nn) (b : binary) : option nat := if track s then Some (length (times b) + Nat.b2n (save s)) else None.

(** ** Stopping *)
(** [np.where(np.array(l) <= v)[0][-1]] *)
Fixpoint last_where {A} (f : A -> bool) (l : list A) : option nat :=
  match l with
  | [] => None
  | x :: l' => match last_where f l' with Some i => Some (S i) | None => if f x then Some 0 else None end
  end.
Definition index_of_last {A} (f : A -> bool) (l : list A) : result nat :=
  match last_where f l with Some i => Ok i | None => Raise IndexError end.

(** 1154-1158, 1177-1194 and 1259-1288 *)
Definition interpolate_at_t (t t_before t_after : Q) (v_before v_after : val) : result val :=
  match v_before, v_after with
  | NoneV, _ | _, NoneV => Ok NoneV
  | _, _ =>
    if match v_before with Text s => String.eqb s "None" | _ => false end || match v_after with Text s => String.eqb s "None" | _ => false end then Ok (Text "None")
    else match v_before, v_after with
         | Num b, Num a => Ok (Num ((t - t_before) * ((a - b) / (t_after - t_before)) + b)%Q)
         | Text _, _ | _, Text _ => Raise TypeError
         | _, _ => Ok NaNV
         end
  end.

(** 1229-1257: [f] is flush_entries, if the history is to be flushed. *)
Definition flushed (f : option nat) {A} (h : list A) : list A := match f with Some n => firstn n h | None => h end.
Definition reinferred (f : option nat) (t : treatment) (v : val) : val := match f, t with Some _, Inferred w => w | _, _ => v end.

(** 1129-1212 with property 'time' and [interpolate]: [i] is the last index with a time of at most [t], [ts] the times with the current one. *)
Definition stop_prop (t : Q) (i : nat) (ts : list Q) (f : option nat) (p : prop) : result prop :=
  match treat p with
  | Interpolated =>
      let h := hist p ++ [cur p] in
      rbind (at_index ts i) (fun tb => rbind (at_index ts (S i)) (fun ta => rbind (at_index h i) (fun vb => rbind (at_index h (S i)) (fun va =>
      rbind (interpolate_at_t t tb ta vb va) (fun v => Ok (Prop_ (src p) (treat p) (flushed f (firstn (S i) h)) v))))))
  | _ => rbind (last_of (hist p)) (fun v => Ok (Prop_ (src p) (treat p) (flushed f (firstn (S i) (hist p))) (reinferred f (treat p) v)))
  end.
(** 1209-1212, without interpolation: [h] is the history, with the current value appended for the property of the condition. *)
Definition reset_prop (i : nat) (f : option nat) (own : bool) (p : prop) : result prop :=
  let h := if own then hist p ++ [cur p] else hist p in
  rbind (at_index h i) (fun v => Ok (Prop_ (src p) (treat p) (flushed f (firstn i h)) (reinferred f (treat p) v))).

(** 1088-1257 with property = 'time'; [f = None] is a history that is not flushed, [Some None] one that is to be, with flush_entries None. *)
Definition stop_at_time (value : Q) (interpolate : bool) (f : option (option nat)) (b : binary) : result binary :=
  let ts := times b ++ [now b] in
  rbind (index_of_last (fun x => Qle_bool x value) ts) (fun i =>
  let k := match f with Some n => n | None => None end in
  rbind (if interpolate
         then rbind (each (stop_prop value i ts k) (props b)) (fun ps => Ok (Binary (flushed k (firstn (S i) ts)) value ps))
         else rbind (at_index ts i) (fun t => rbind (each (reset_prop i k false) (props b)) (fun ps => Ok (Binary (flushed k (firstn i ts)) t ps))))
  (fun b' => match f with Some None => Raise ValueError | _ => Ok b' end)).

(** 1096-1119 with another property, number [j]: values that are not numbers cannot be compared (a None raises TypeError, NaN is not less). *)
Definition comparable (v : val) : bool := match v with Num _ | NaNV => true | _ => false end.
Definition val_le (value : Q) (v : val) : bool := match v with Num q => Qle_bool q value | _ => false end.
Fixpoint each_i {A B} (f : nat -> A -> result B) (i : nat) (l : list A) : result (list B) :=
  match l with [] => Ok [] | x :: l' => rbind (f i x) (fun y => rbind (each_i f (S i) l') (fun ys => Ok (y :: ys))) end.
Definition stop_at_property (j : nat) (value : Q) (interpolate : bool) (f : option (option nat)) (b : binary) : result binary :=
  match nth_error (props b) j with
  | None => Raise ValueError
  | Some p =>
      let h := hist p ++ [cur p] in
      if negb (forallb comparable h) then Raise TypeError
      else rbind (index_of_last (val_le value) h) (fun i =>
        if interpolate then Raise ValueError
        else let k := match f with Some n => n | None => None end in
          rbind (at_index (times b) i) (fun t => rbind (each_i (fun n q => reset_prop i k (n =? j) q) 0 (props b)) (fun ps =>
          match f with Some None => Raise ValueError | _ => Ok (Binary (flushed k (firstn i (times b))) t ps) end)))
  end.

(** 1056-1086: nothing if the maximum time is exceeded. *)
Definition stop_at_end (max_time : Q) (f : option (option nat)) (b : binary) : binary :=
  if negb (Qle_bool (now b) max_time) then b
  else match f with
       | Some (Some n) => Binary (firstn n (times b)) (now b) (map (fun p => Prop_ (src p) (treat p) (firstn n (hist p)) (cur p)) (props b))
       | _ => b
       end.

(** ** The step *)
Inductive stop_method := StopAtMaxTime | StopAtCondition (j : nat) (value : Q) | StopAtEnd.
(** [nearest]: interpolation_method is 'nearest_neighbour'; [sim_time]: get_final_MESA_step_time (NaN is None); [final]: initial_final_interpolation for
    the properties other than the time; [old_flush]: flush_history as left by earlier calls of the same step object. *)
Record settings := Settings { method : stop_method; nearest : bool; tracking : bool; saving : bool; stop_interpolate : bool; old_flush : bool }.
Inductive ending := Plain | AtMaxTime | BeyondMaxTime.

(** 358-442.  [None] is the early return with binary state 'initial_RLOF' (375-379). *)
Definition call (s : settings) (r : run) (sim_time : option Q) (final : list prop -> list prop) (max_time : Q) (b : binary)
  : result (option (binary * ending)) :=
  match sim_time with
  | None => Ok None
  | Some dt =>
    let exceed := negb (Qle_bool (now b + dt) max_time) in
    let at_max := match method s with StopAtMaxTime => true | _ => false end in
    let nn_full := NN true (saving s) (negb (tracking s)) in
    let nn_step := NN (tracking s) (saving s) (negb (tracking s)) in
    let '(b1, f) :=
      if exceed && at_max then (update_NN nn_full r b, if negb (tracking s) then Some (flush_entries nn_full b) else None)
      else if nearest s then (update_NN nn_step r b, if negb (tracking s) then Some (flush_entries nn_step b) else None)
      else (Ok (Binary (times b) (now b + dt) (final (props b))), if old_flush s then Some None else None) in
    rbind b1 (fun b1 =>
    rbind (if at_max && Qle_bool max_time (now b1) then stop_at_time max_time (stop_interpolate s) f b1
           else match method s with
                | StopAtCondition j v => stop_at_property j v (stop_interpolate s) f b1
                | _ => Ok (stop_at_end max_time f b1)
                end)
    (fun b2 => Ok (Some (b2, if negb (Qle_bool (now b2) max_time) then BeyondMaxTime else if Qeq_bool (now b2) max_time then AtMaxTime else Plain))))
  end.
