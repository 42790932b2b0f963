(** The inlists of a grid of binaries: construct_static_inlist, bin/posydon-setup-grid:379-866.

    single_star_grid is False.  [read f section] is [clean_inlist_file(f, section=section)[section]], the parameters of a section of a file (see
    InlistModel), or the exception it ends in.  [cfg] are the items of mesa_inlists in their order; the other options are in [options], where zams_filename stands for
    both of zams_filename_1 and zams_filename_2.  A key of star formation has not the name of a section of the binary.  Left out: the text of the files, the
    warnings, and the files which are written before an exception. *)
From Coq Require Import String List Bool Arith.
From Verif Require Import PyBase PyStr PyReplace PopModel.
Import ListNotations.
Open Scope list_scope.
Open Scope string_scope.
Local Infix "+++" := (@app _) (at level 60, right associativity).

Inductive sec := BC | BJ | J1 | J2 | C1 | C2.
Inductive star := One | Two.
Inductive value := Unset | File (f : string) | Files (l : list string).
Definition table := list (string * string).
Record options := { zams1 : option string; zams2 : option string; profile1 : bool; profile2 : bool; model1 : bool; model2 : bool; history1 : bool; history2 : bool;
  interval : string; binary_history : bool; work : string }.

(** lines 436-491: the section to which a key belongs, the first of the names found in it *)
Definition classify (k : string) : option sec :=
  if py_in "binary_controls" k then Some BC else if py_in "binary_job" k then Some BJ else if py_in "star1_job" k then Some J1 else if py_in "star2_job" k then Some J2
  else if py_in "star1_controls" k then Some C1 else if py_in "star2_controls" k then Some C2 else None.
Definition namelist (s : sec) : string := match s with BC => "&binary_controls" | BJ => "&binary_job" | J1 | J2 => "&star_job" | C1 | C2 => "&controls" end.
Definition controls (s : sec) : bool := match s with C1 | C2 => true | _ => false end.
(** lines 441-442 and 471-477 *)
Definition entries (s : sec) (p : table) : table :=
  map (fun kv => (if controls s && py_in "num_x_ctrls" (fst kv) then py_replace "num_x_ctrls" "1" (fst kv) else fst kv, snd kv))
      (filter (fun kv => negb (py_in "read_extra" (fst kv) || py_in "inlist" (fst kv))) p).
Definition sec_eqb (a b : sec) : bool := match a, b with BC, BC | BJ, BJ | J1, J1 | J2, J2 | C1, C1 | C2, C2 => true | _, _ => false end.
Definition add (st : sec -> table) (s : sec) (p : table) : sec -> table := fun s' => if sec_eqb s' s then dset_all String.eqb (st s') (entries s p) else st s'.
(** lines 433-491; a list of files cannot be opened *)
Fixpoint layers (read : string -> string -> result table) (cfg : list (string * value)) (st : sec -> table) : result (sec -> table) :=
  match cfg with
  | [] => Ok st
  | (k, v) :: r => match v, classify k with
                   | Unset, _ | _, None => layers read r st
                   | File f, Some s => rbind (read f (namelist s)) (fun p => layers read r (add st s p))
                   | Files _, Some _ => Raise TypeError
                   end
  end.

Definition digit (i : star) : string := match i with One => "1" | Two => "2" end.
(** lines 546-548 (674-675): the items of the formation of the star *)
Definition formation_items (i : star) (cfg : list (string * value)) : list (string * value) :=
  filter (fun kv => py_in ("star" ++ digit i ++ "_formation") (fst kv) && match snd kv with Unset => false | _ => true end) cfg.
(** lines 556-559 *)
Definition number (items : list (string * value)) : nat := fold_left (fun n kv => match snd kv with Files l => Nat.max n (List.length l) | _ => n end) items 1.
(** lines 561-565 *)
Definition pick (n : nat) (v : value) : result string :=
  match v with File f => Ok f | Files l => match nth_error l n with Some f => Ok f | None => Raise IndexError end | Unset => Raise TypeError end.
Fixpoint picks (n : nat) (items : list (string * value)) : result (list (string * string)) :=
  match items with [] => Ok [] | (k, v) :: r => rbind (pick n v) (fun f => rbind (picks n r) (fun l => Ok ((k, f) :: l))) end.
Fixpoint map_result {A B} (f : A -> result B) (l : list A) : result (list B) :=
  match l with [] => Ok [] | x :: r => rbind (f x) (fun y => rbind (map_result f r) (fun z => Ok (y :: z))) end.
(** lines 572-594: the controls and the job of a step *)
Fixpoint step_layers (read : string -> string -> result table) (i : star) (l : list (string * string)) (st : table * table) : result (table * table) :=
  match l with
  | [] => Ok st
  | (k, f) :: r =>
      rbind (if py_in ("star" ++ digit i ++ "_formation_controls") k then rbind (read f "&controls") (fun p => Ok (dset_all String.eqb (fst st) (entries C1 p))) else Ok (fst st)) (fun c =>
      rbind (if py_in ("star" ++ digit i ++ "_formation_job") k then rbind (read f "&star_job") (fun p => Ok (dset_all String.eqb (snd st) (entries J1 p))) else Ok (snd st)) (fun j =>
      step_layers read i r (c, j)))
  end.
Definition model_file (i : star) (n : nat) : string := "'initial_star" ++ digit i ++ "_step" ++ str_nat n ++ ".mod'".
(** lines 605-613 *)
Definition step_writes (i : star) (n : nat) : table :=
  match n with
  | 0 => [("save_model_when_terminate", ".true."); ("save_model_filename", model_file i 0)]
  | S m => [("create_pre_main_sequence_model", ".false."); ("load_saved_model", ".true."); ("saved_model_name", model_file i m);
            ("save_model_when_terminate", ".true."); ("save_model_filename", model_file i n)]
  end.
Record step_file := { name : list string; step_controls : table; step_job : table }.
(** lines 536-646 (668-747): the files of the steps; none if there is a precomputed model or nothing is given.  All lists are looked up first. *)
Definition formation (read : string -> string -> result table) (i : star) (o : options) (cfg : list (string * value)) : result (list step_file) :=
  match (match i with One => zams1 o | Two => zams2 o end), formation_items i cfg with
  | Some _, _ | None, [] => Ok []
  | None, items =>
      rbind (map_result (fun n => rbind (picks n items) (fun l => Ok (n, l))) (seq 0 (number items))) (fun steps =>
      map_result (fun nl => rbind (step_layers read i (snd nl) ([], [])) (fun cj =>
        Ok {| name := [work o; "star" ++ digit i; "inlist_step" ++ str_nat (fst nl)]; step_controls := fst cj; step_job := dset_all String.eqb (snd cj) (step_writes i (fst nl)) |})) steps)
  end.

(** lines 493-531 and 596-601, 749-793: what is written on top of the layers *)
Definition flag (b : bool) : string := if b then ".true." else ".false.".
Definition some_parameter (grid : list string) (t : table) : bool := existsb (dmem String.eqb t) grid.
Definition load_writes (i : star) (n : nat) : table := [("create_pre_main_sequence_model", ".false."); ("load_saved_model", ".true."); ("saved_model_name", model_file i n)].
Definition job_writes (i : star) (extra : bool) (steps : nat) (profile model : bool) : table :=
  (if extra then [("read_extra_star_job_inlist1", ".true."); ("extra_star_job_inlist1_name", "'inlist_grid_star" ++ digit i ++ "_binary_job'")] else []) +++
  flat_map (load_writes i) (seq 0 steps) +++
  (if profile then [("write_profile_when_terminate", ".true."); ("filename_for_profile_when_terminate", "'final_profile_star" ++ digit i ++ ".data'")] else [("write_profile_when_terminate", ".false.")]) +++
  (if model then [("save_model_when_terminate", ".true."); ("save_model_filename", "'final_star" ++ digit i ++ ".mod'")] else [("save_model_when_terminate", ".false.")]).
Definition control_writes (i : star) (extra history : bool) (every : string) (zams : option string) : table :=
  (if extra then [("read_extra_controls_inlist1", ".true."); ("extra_controls_inlist1_name", "'inlist_grid_star" ++ digit i ++ "_binary_controls'")] else []) +++
  [("do_history_file", flag history); ("history_interval", every)] +++ match zams with Some z => [("zams_filename", "'" ++ z ++ "'")] | None => [] end.
Definition writes (o : options) (grid : list string) (st : sec -> table) (n1 n2 : nat) (inlist1 inlist2 : string) (s : sec) : table :=
  match s with
  | BC => [("history_interval", interval o)] +++ (if binary_history o then [] else [("history_interval", "-1")])
  | BJ => [("inlist_names(1)", "'" ++ inlist1 ++ "'"); ("inlist_names(2)", "'" ++ inlist2 ++ "'")]
  | J1 => job_writes One (some_parameter grid (st J1)) n1 (profile1 o) (model1 o)
  | J2 => job_writes Two (some_parameter grid (st J2)) n2 (profile2 o) (model2 o)
  | C1 => control_writes One (some_parameter grid (st C1)) (history1 o) (interval o) (zams1 o)
  | C2 => control_writes Two (some_parameter grid (st C2)) (history2 o) (interval o) (zams2 o)
  end.
Record inlists := { final : sec -> table; form1 : list step_file; form2 : list step_file }.
Definition construct (read : string -> string -> result table) (o : options) (grid : list string) (cfg : list (string * value)) : result inlists :=
  rbind (layers read cfg (fun _ => [])) (fun st =>
  rbind (formation read One o cfg) (fun f1 =>
  rbind (formation read Two o cfg) (fun f2 =>
  Ok {| final := fun s => dset_all String.eqb (st s) (writes o grid st (List.length f1) (List.length f2) (work o ++ "/binary/inlist1") (work o ++ "/binary/inlist2") s); form1 := f1; form2 := f2 |}))).
