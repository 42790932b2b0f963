(** Population.calculate_formation_channels and create_transient_population,
    posydon/popsyn/synthetic_population.py:1407-1570 and 1595-1736. *)
From Coq Require Import String List ZArith Bool Lia.
From Verif Require Import PyBase PyStr PyReplace TableModel ExportModel.
Import ListNotations.
Open Scope string_scope.
Open Scope nat_scope.
Open Scope list_scope.

(** ** The loop over windows, lines 1474-1503 and 1679-1725: the binaries in the order of
    history_lengths, [c] at a time; rows of the history are counted along. *)
Section Windows.
  Variables H O W : Type.
  (** What is done with one window: selected indices, one-line rows, history rows. *)
  Variable body : nat -> list Z -> table O -> table H -> result W.
  Variable write : W -> option W -> option W.

  Fixpoint each_window (fuel c i previous : nat) (h : history H) (o : oneline O) (out : option W)
    : option W * option exn :=
    if length (h_lengths h) <=? i then (out, None)
    else match fuel with
    | 0 => (out, None)
    | S f =>
        let stop := previous + list_sum (map snd (window i (i + c) (h_lengths h))) in
        match rbind (select_range (o_chunk o) (o_rows o) i (i + c)) (fun ones =>
              rbind (select_range (h_chunk h) (h_rows h) previous stop) (fun hist =>
              body i (window i (i + c) (keys (h_lengths h))) ones hist)) with
        | Raise e => (out, Some e)
        | Ok w => each_window f c (i + c) stop h o (write w out)
        end
    end.
  (** range(0, len(indices), c) has at most len(indices) elements for c >= 1. *)
  Definition windows (c : nat) (h : history H) (o : oneline O) : option W * option exn :=
    each_window (length (h_lengths h)) c 0 0 h o None.
End Windows.
Arguments windows {H O W} _ _ _ _ _.
Arguments each_window {H O W} _ _ _ _ _ _ _ _ _.

(** ** Formation channels *)

(** HMS_HMS_event_dict, lines 1429-1435. *)
Definition HMS_HMS_event_dict : list (string * string) :=
  [ ("initial_MT", "initial_MT"); ("stable_MT", "oRLO1"); ("stable_reverse_MT", "oRLO1-reverse");
    ("no_MT", "None"); ("unstable_MT", "oCE1/oDoubleCE1") ].

(** A one-line row: the columns interp_class_HMS_HMS and mt_history_HMS_HMS. *)
Definition one_row := (option string * option string)%type.

(** Lines 1495-1500: known classes are translated, missing ones stay. *)
Fixpoint translate (t : table one_row) : result (table (option string)) :=
  match t with
  | [] => Ok []
  | (i, (cls, _)) :: t' =>
      match cls with
      | None => rbind (translate t') (fun r => Ok ((i, None) :: r))
      | Some s => match dget String.eqb HMS_HMS_event_dict s with
                  | None => Raise KeyError
                  | Some e => rbind (translate t') (fun r => Ok ((i, Some e) :: r))
                  end
      end
  end.

(** pd.merge(events.dropna(), classes, left_index=True, right_index=True) *)
Definition merge_index (events : table (option string)) (classes : table (option string))
  : table (string * option string) :=
  flat_map (fun r => match snd r with
                     | None => []
                     | Some e => map (fun q => (fst r, (e, snd q))) (filter (fun q => Z.eqb (fst q) (fst r)) classes)
                     end) events.

(** get_events, lines 1446-1457. *)
Definition get_events (group : list (string * option string)) : option string :=
  match group with
  | [] => None
  | (e, cls) :: rest =>
      let is_class s q := match snd q with Some x => String.eqb x s | None => false end in
      if existsb (is_class "oRLO1") group || existsb (is_class "oRLO1-reverse") group
      then match cls with
           | Some s => Some (String.concat "_" ((e ++ "_" ++ s)%string :: map fst rest))
           | None => None     (* str + float: TypeError; needs a class that varies within a binary *)
           end
      else Some (String.concat "_" (map fst group))
  end.

(** Lines 1513-1520. *)
Definition clean_channel (s : string) : string :=
  py_replace "_CO_contact" ""
    (py_replace "_redirect_from_CO_HeMS" ""
      (py_replace "_redirect_from_CO_HeMS_RLO" ""
        (py_replace "_redirect_from_CO_HMS_RLO" ""
          (py_replace "_redirect_from_ZAMS" "" s)))).

(** get_mt_history, lines 1459-1472.  A missing channel is a float without replace. *)
Definition get_mt_history (channel : option string) (mt : option string) : result (option string) :=
  match mt with
  | Some m => if String.eqb m "Stable contact phase"
              then match channel with
                   | Some s => Ok (Some (py_replace "oRLO1" "oRLO1-contact" s))
                   | None => Raise AttributeError
                   end
              else Ok channel
  | None => Ok channel
  end.

(** df['channel'].str.slice(0, 100), lines 1560-1564. *)
Definition cut (s : string) : string := substring 0 100 s.

(** A row of the table formation_channels: channel_debug and channel. *)
Definition chan_row := (option string * option string)%type.

Fixpoint map_result {A B} (f : A -> result B) (l : list A) : result (list B) :=
  match l with
  | [] => Ok []
  | x :: l' => rbind (f x) (fun y => rbind (map_result f l') (fun ys => Ok (y :: ys)))
  end.

(** One chunk, lines 1480-1541.  Columns assigned to a frame are aligned by index label.
    Simplification: what pandas does with a chunk in which no binary has any event is not
    modelled (here: all channels missing).  [mt_column]: the one-line table has the column
    mt_history_HMS_HMS. *)
Definition channel_chunk (mt_history mt_column : bool) (sel : list Z) (ones : table one_row)
    (events : table (option string)) : result (table chan_row) :=
  rbind (translate ones) (fun classes =>
    let merged := merge_index events classes in
    let debug i := get_events (map snd (filter (fun r => Z.eqb (fst r) i) merged)) in
    if mt_history && negb mt_column then Raise ValueError
    else map_result (fun i =>
      let channel := option_map clean_channel (debug i) in
      let mt := match filter (fun r => Z.eqb (fst r) i) ones with r :: _ => snd (snd r) | [] => None end in
      rbind (if mt_history then get_mt_history channel mt else Ok channel) (fun ch =>
      Ok (i, (option_map cut (debug i), option_map cut ch)))) sel).

(** The table formation_channels after the call (an existing one is deleted first) and the
    exception, if any. *)
Definition calculate_formation_channels (mt_history mt_column : bool) (c : nat)
    (h : history (option string)) (o : oneline one_row) : option (table chan_row) * option exn :=
  windows (fun _ sel ones events => channel_chunk mt_history mt_column sel ones events)
          (fun rows out => append_rows out rows) c h o.

(** ** Transient populations *)
Section Transient.
  Variables H O C T : Type.

  (** A frame returned by the user's function. *)
  Record frame := Frame { f_columns : list string; f_rows : table T }.

  Fixpoint no_duplicates (l : list string) : bool :=
    match l with [] => true | x :: l' => negb (inb String.eqb x l') && no_duplicates l' end.

  (** Lines 1701-1710. *)
  Definition transient_chunk (func : table H -> table O -> option (table C) -> result frame)
      (channels : option (table C)) (c i : nat) (ones : table O) (hist : table H) : result (table T) :=
    rbind (func hist ones (option_map (window i (i + c)) channels)) (fun f =>
    if negb (inb String.eqb "time" (f_columns f)) then Raise ValueError
    else if negb (inb String.eqb "metallicity" (f_columns f)) then Raise ValueError
    else if negb (no_duplicates (f_columns f)) then Raise ValueError
    else Ok (f_rows f)).

  (** Lines 1640-1736: the stored table ([None]: no table, hence None is returned) and the
      exception.  [time_column]: hist_cols is None or contains "time". *)
  Definition create_transient_population (func : table H -> table O -> option (table C) -> result frame)
      (time_column : bool) (channels : option (table C)) (c : nat) (h : history H) (o : oneline O)
    : option (table T) * option exn :=
    if negb time_column then (None, Some ValueError)
    else windows (fun i _ ones hist => transient_chunk func channels c i ones hist)
                 (fun rows out => append_rows out rows) c h o.
End Transient.
Arguments Frame {T} _ _.
Arguments f_columns {T} _.
Arguments f_rows {T} _.
Arguments create_transient_population {H O C T} _ _ _ _ _ _.
