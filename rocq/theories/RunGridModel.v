(** The running of a point of a fixed grid with MESA: bin/posydon-run-grid, lines 175-527, 736-788 and 793-991.

    Numbers are rationals, None is NaN.  MESA is not modelled: a run is recorded with the files of parameters it finds in its working directory, which it is
    assumed not to change, and the way its output is treated.  The directories (their names, the removal of old ones, the copies of the lists of columns, the copy
    made shortly before the end of the job by a forked process), the results which are collected afterwards (lines 785-788 and 980-987), and the output for the
    user are left out.  A text of the form '{:.10e}' is the number itself ([Sci]).  The names of the columns are different, as pandas makes them, and the values of
    a row are those pandas gives for it (whole numbers become floats beside floats).  The columns q and log_p, which are computed for all grids in lines 946-958,
    are taken not to be parameters of MESA. *)
From Coq Require Import String List Bool ZArith QArith Qround.
From Verif Require Import PyBase PyStr InlistModel.
Import ListNotations.
Open Scope Q_scope.
Open Scope list_scope.
Open Scope string_scope.

Inductive value := VFloat (x : option Q) | VInt (z : Z) | VBool (b : bool) | VText (s : string).
(** What is written for a value *)
Inductive shown := Sci (x : option Q) | Int (z : Z) | Logical (b : bool) | AsIs (v : value).
Definition dict := list (string * value).
(** The six lists of parameters: controls and job of the binary and of the two stars *)
Inductive slot := BC | BJ | S1C | S1J | S2C | S2J.
Definition namelist (s : slot) : string :=
  match s with BC => "&binary_controls" | BJ => "&binary_job" | S1C | S2C => "&controls" | S1J | S2J => "&star_job" end.
Inductive content := StarInlist (project : string) | BinaryInlist (project : string) | Blocks (l : list (string * list (string * shown))).
Definition files := list (string * content).
(** A run of MESA: the executable, the file for the output (of a star and step, or of the binary), the files it finds, whether the profiles and photos are kept,
    and whether the working directory is kept (and copied) or moved *)
Inductive outfile := OutStar (star step : nat) | OutBinary.
Record event := Ran { exe : string; out : outfile; found : files; keep_profiles : bool; keep_photos : bool; keep_work_dir : bool }.

(** ** create_binary_inlists *)

(** lines 264-276, and the same five times more *)
Definition is_integer (q : Q) : bool := Qeq_bool q (inject_Z (Qfloor q)).
Definition show (v : value) : shown :=
  match v with
  | VFloat (Some q) => if is_integer q then Int (Qfloor q) else Sci (Some q)
  | VFloat None => Sci None
  | VBool b => Logical b
  | _ => AsIs v
  end.
Definition block (name : string) (d : dict) : string * list (string * shown) := (name, map (fun kv => (fst kv, show (snd kv))) d).
(** [if d:] *)
Definition unless_empty {A B} (d : list A) (x : list B) : list B := match d with [] => [] | _ => x end.
Definition write (w : files) (name : string) (c : content) : files := dset String.eqb w name c.
Definition write_star (w : files) (name : string) (n : string) (d : dict) : files :=
  match d with [] => w | _ => write w name (Blocks [block n d]) end.
(** lines 222-385 *)
Definition create_binary_inlists (ds : slot -> dict) (project : string) (w : files) : files :=
  let w := write w "inlist" (BinaryInlist project) in
  let w := write w "inlist_grid_points" (Blocks (unless_empty (ds BC) [block (namelist BC) (ds BC)] ++ unless_empty (ds BJ) [block (namelist BJ) (ds BJ)])%list) in
  let w := write_star w "inlist_grid_star1_binary_controls" "&controls" (ds S1C) in
  let w := write_star w "inlist_grid_star2_binary_controls" "&controls" (ds S2C) in
  let w := write_star w "inlist_grid_star1_binary_job" "&star_job" (ds S1J) in
  write_star w "inlist_grid_star2_binary_job" "&star_job" (ds S2J).

(** ** create_star_formation *)

(** ['{0:.10e}'.format(v)]: a text cannot be formatted so *)
Definition sci (v : value) : result shown :=
  match v with
  | VFloat x => Ok (Sci x)
  | VInt z => Ok (Sci (Some (inject_Z z)))
  | VBool b => Ok (Sci (Some (if b then 1 else 0)))
  | VText _ => Raise ValueError
  end.
(** lines 387-441; [z]: the metallicity if it is given, [new_Z] is only set with it *)
Definition create_star_formation (mass : value) (project : string) (z : option value) (new_Z : bool) (w : files) : result files :=
  let w := write w "inlist" (StarInlist project) in
  rbind (sci mass) (fun m =>
  match z with
  | None => Ok (write w "inlist_grid_points" (Blocks [("&controls", [("initial_mass", m)]); ("&star_job", [])]))
  | Some z =>
      rbind (sci z) (fun zz =>
      Ok (write w "inlist_grid_points" (Blocks [("&controls", [("initial_mass", m); ("initial_z", zz); ("Zbase", zz)]);
                                                ("&star_job", if new_Z then [("new_Z", zz)] else [])])))
  end).
(** [d[k]] *)
Definition item {V} (d : list (string * V)) (k : string) : result V := match dget String.eqb d k with Some v => Ok v | None => Raise KeyError end.

(** ** run_grid_point *)

(** lines 747-758 and 761-772: the steps of the formation of a star; [mass] is 'm1' or 'm2' *)
Fixpoint formation (executable mass : string) (star : nat) (params : dict) (i : nat) (projects : list string) (w : files) : list event * result files :=
  match projects with
  | [] => ([], Ok w)
  | p :: r =>
      let w' := match i with
                | O => rbind (item params mass) (fun m => create_star_formation m p None false w)
                | S O => rbind (item params mass) (fun m => rbind (item params "initial_z") (fun z => create_star_formation m p (Some z) true w))
                | _ => Ok w
                end in
      match w' with
      | Raise e => ([], Raise e)
      | Ok w' =>
          let rest := formation executable mass star params (S i) r w' in
          (Ran executable (OutStar star i) w' false false true :: fst rest, snd rest)
      end
  end.
(** lines 175-220: the name of the directory; a text cannot be formatted with '{:.4f}' *)
Definition nameable (params : dict) : bool := forallb (fun kv => match snd kv with VText _ => false | _ => true end) params.

Record args := Args { star1_executable : option string; star2_executable : option string;
                      (** None: not given on the command line *)
                      star1_projects : option (list string); star2_projects : option (list string);
                      binary_executable : string; binary_project : string; binary_inlist1 : string; binary_inlist2 : string;
                      grid_point_index : option Z; profiles_kept : bool; photos_kept : bool }.

(** lines 736-783; [f1] and [f2]: the executable and the steps of the formation, if there is one *)
Definition formation_of (f : option (string * list string)) (mass : string) (star : nat) (params : dict) (w : files) : list event * result files :=
  match f with Some (x, ps) => formation x mass star params 0 ps w | None => ([], Ok w) end.
Definition run_grid_point (a : args) (f1 f2 : option (string * list string)) (params : dict) (ds : slot -> dict) : list event * result unit :=
  if negb (nameable params) then ([], Raise ValueError)
  else
    let s1 := formation_of f1 "m1" 1 params [] in
    match snd s1 with
    | Raise e => (fst s1, Raise e)
    | Ok w1 =>
        let s2 := formation_of f2 "m2" 2 params w1 in
        match snd s2 with
        | Raise e => ((fst s1 ++ fst s2)%list, Raise e)
        | Ok w2 =>
            let w := create_binary_inlists ds (binary_project a) w2 in
            ((fst s1 ++ fst s2 ++ [Ran (binary_executable a) OutBinary w (profiles_kept a) (photos_kept a) false])%list, Ok tt)
        end
    end.

(** ** The program *)

Record grid := Grid { columns : list string; rows : list dict }.
(** lines 804-819: the formation of a star; without the option on the command line [in] fails *)
Definition formation_args (executable : option string) (projects : option (list string)) : result (option (string * list string)) :=
  match projects with
  | None => Raise TypeError
  | Some ps =>
      if existsb (String.eqb "None") ps then Ok None
      else Ok (match executable with Some x => Some (x, ps) | None => None end)
  end.
(** lines 845-854: the parameters of the templates; [read]: the lines of a file *)
Definition section (d : params) (k : string) : result (list (string * string)) := match dget key_eqb d (Some k) with Some x => Ok x | None => Raise KeyError end.
Definition templates (read : string -> list string) (a : args) : result (slot -> list (string * string)) :=
  rbind (clean_inlist_file None (read (binary_project a))) (fun b =>
  rbind (clean_inlist_file None (read (binary_inlist1 a))) (fun s1 =>
  rbind (clean_inlist_file None (read (binary_inlist2 a))) (fun s2 =>
  rbind (section b "&binary_controls") (fun bc =>
  rbind (section b "&binary_job") (fun bj =>
  rbind (section s1 "&controls") (fun c1 =>
  rbind (section s1 "&star_job") (fun j1 =>
  rbind (section s2 "&controls") (fun c2 =>
  rbind (section s2 "&star_job") (fun j2 =>
  Ok (fun s => match s with BC => bc | BJ => bj | S1C => c1 | S1J => j1 | S2C => c2 | S2J => j2 end)))))))))).
(** lines 870-877 *)
Definition grid_params (g : grid) (t : list (string * string)) : list string := filter (dmem String.eqb t) (columns g).
(** [row[names].to_dict()] *)
Definition pick (row : dict) (names : list string) : dict := flat_map (fun n => match dget String.eqb row n with Some v => [(n, v)] | None => [] end) names.
(** [dict(ChainMap({}, d1, d2, ...))]: the first dict with a key decides *)
Definition chain (ds : list dict) : dict := dset_all String.eqb [] (concat (rev ds)).

(** lines 905-921: the steps of a single star *)
Fixpoint single (executable : string) (a : args) (params : dict) (last i : nat) (projects : list string) (w : files) : list event * result unit :=
  match projects with
  | [] => ([], Ok tt)
  | p :: r =>
      let w' := rbind (item params "initial_mass") (fun m =>
                if Nat.eqb i last then rbind (item params "initial_z") (fun z => create_star_formation m p (Some z) false w)
                else if Nat.eqb i 1 then rbind (item params "initial_z") (fun z => create_star_formation m p (Some z) true w)
                else create_star_formation m p None false w) in
      match w' with
      | Raise e => ([], Raise e)
      | Ok w' =>
          let rest := single executable a params last (S i) r w' in
          (Ran executable (OutStar 1 i) w' (profiles_kept a) (photos_kept a) (Nat.ltb i last) :: fst rest, snd rest)
      end
  end.
(** [grid.iloc[i]]; None is no position *)
Definition iloc (g : grid) (i : option Z) : result dict :=
  match i with
  | None => Raise TypeError
  | Some i => match py_nth (rows g) i with Some r => Ok r | None => Raise IndexError end
  end.
(** lines 880-923 *)
Definition single_star (read : string -> list string) (a : args) (g : grid) (executable : string) (projects : list string) : list event * result unit :=
  match rbind (clean_inlist_file None (read (hd "" projects))) (fun d =>
        rbind (section d "&controls") (fun c =>
        rbind (section d "&star_job") (fun j =>
        rbind (iloc g (grid_point_index a)) (fun row =>
        Ok (chain [pick row (grid_params g c); pick row (grid_params g j)]))))) with
  | Raise e => ([], Raise e)
  | Ok params =>
      if negb (nameable params) then ([], Raise ValueError)
      else single executable a params (length projects - 1)%nat 0 projects []
  end.
Definition slots := [BC; BJ; S1C; S1J; S2C; S2J].
(** lines 793-991 for a fixed grid *)
Definition run_fixed (read : string -> list string) (a : args) (g : grid) : list event * result unit :=
  match rbind (formation_args (star1_executable a) (star1_projects a)) (fun f1 =>
        rbind (formation_args (star2_executable a) (star2_projects a)) (fun f2 =>
        rbind (templates read a) (fun t => Ok (f1, f2, t)))) with
  | Raise e => ([], Raise e)
  | Ok (f1, f2, t) =>
      match f1, (grid_params g (t BC) ++ grid_params g (t BJ))%list with
      | Some (x, ps), [] => single_star read a g x ps
      | _, _ =>
          match grid_point_index a with
          | None => ([], Ok tt)
          | Some _ =>
              match iloc g (grid_point_index a) with
              | Raise e => ([], Raise e)
              | Ok row =>
                  let ds := fun s => pick row (grid_params g (t s)) in
                  run_grid_point a f1 f2 (chain (map ds slots)) ds
              end
          end
      end
  end.
