(** The call of posydon-run-grid: construct_command_line, bin/posydon-setup-grid:934-978, read by parse_commandline, bin/posydon-run-grid:33-148, and lines 801-819.

    A command line is the list of its words, as the shell gives them when no argument has blanks or special characters.  argparse is modelled for the options below:
    a word beginning with "-" is an option, the words up to the next one its values; abbreviations, negative numbers and "--option=value" are left out, as are the
    options which setup-grid does not give in this function (--temporary-directory, --job_end and others).  An error of argparse ends the program (SystemExit). *)
From Coq Require Import String List Bool Arith.
From Verif Require Import PyBase PyStr.
Import ListNotations.
Open Scope list_scope.
Open Scope string_scope.
Local Infix "+++" := (@app _) (at level 60, right associativity).

Record call := { processes : string; grid : string; binary_exe : string; star1_exe : string; star2_exe : string; project : string; inlist1 : string; inlist2 : string;
  formation1 : option (list string); formation2 : option (list string); star_columns : string; binary_columns : string; profile_columns : string; output : string;
  grid_type : string; program : string; psycris : option string; keep_profiles : bool; keep_photos : bool }.
(** [format] writes None as a word; the inlists of the formation of a star are a text with a blank before each *)
Definition several (o : option (list string)) : list string := match o with Some l => l | None => ["None"] end.
Definition one (o : option string) : string := match o with Some s => s | None => "None" end.
(** setup-grid:950-978, from --mesa-grid on *)
Definition options (c : call) : list string :=
  ["--mesa-grid"; grid c; "--mesa-binary-executable"; binary_exe c; "--mesa-star1-executable"; star1_exe c; "--mesa-star2-executable"; star2_exe c; "--mesa-binary-inlist-project"; project c;
   "--mesa-binary-inlist1"; inlist1 c; "--mesa-binary-inlist2"; inlist2 c; "--mesa-star1-inlist-project"] +++ several (formation1 c) +++ ["--mesa-star2-inlist-project"] +++ several (formation2 c) +++
  ["--mesa-star-history-columns"; star_columns c; "--mesa-binary-history-columns"; binary_columns c; "--mesa-profile-columns"; profile_columns c; "--output-directory"; output c; "--grid-type"; grid_type c;
   "--psycris-inifile"; one (psycris c)] +++ (if keep_profiles c then ["--keep_profiles"] else []) +++ (if keep_photos c then ["--keep_photos"] else []).
(** setup-grid:944-949; the words before the program, the program, and its arguments *)
Definition construct_command_line (c : call) : result (list string * list string) :=
  if String.eqb (grid_type c) "fixed" then Ok (["python"; program c], options c)
  else if String.eqb (grid_type c) "dynamic" then Ok (["mpirun"; "--bind-to"; "none"; "-np"; processes c; "python"; "-m"; "mpi4py"; program c], options c)
  else Raise ValueError.

(** argparse: the options with their values; the words before the first option *)
Definition is_option (w : string) : bool := prefix "-" w.
Fixpoint group (l : list string) : list string * list (string * list string) :=
  match l with
  | [] => ([], [])
  | w :: r => let g := group r in if is_option w then ([], (w, fst g) :: snd g) else (w :: fst g, snd g)
  end.
(** run-grid:43-132 *)
Definition required : list string :=
  ["--mesa-grid"; "--grid-type"; "--output-directory"; "--mesa-binary-executable"; "--mesa-binary-inlist-project"; "--mesa-binary-inlist1"; "--mesa-binary-inlist2"; "--mesa-star-history-columns";
   "--mesa-binary-history-columns"; "--mesa-profile-columns"].
Definition single : list string := required +++ ["--psycris-inifile"; "--mesa-star1-executable"; "--mesa-star2-executable"].
Definition many : list string := ["--mesa-star1-inlist-project"; "--mesa-star2-inlist-project"].
Definition flags : list string := ["--verbose"; "--keep_profiles"; "--keep_photos"].
Definition sin (w : string) (l : list string) : bool := existsb (String.eqb w) l.
Definition fits (g : string * list string) : bool :=
  if sin (fst g) single then Nat.eqb (List.length (snd g)) 1 else if sin (fst g) many then Nat.leb 1 (List.length (snd g)) else if sin (fst g) flags then Nat.eqb (List.length (snd g)) 0 else false.
Definition parsed := list (string * list string).
Definition text (d : parsed) (o : string) : option string := match dget String.eqb d o with Some (x :: _) => Some x | _ => None end.
Definition flag (d : parsed) (o : string) : bool := dmem String.eqb d o.
(** run-grid:134-148 *)
Definition parse_commandline (argv : list string) : result parsed :=
  let g := group argv in
  let d := dset_all String.eqb [] (snd g) in
  if negb (match fst g with [] => true | _ => false end && forallb fits (snd g) && forallb (dmem String.eqb d) required) then Raise (OtherError "SystemExit")
  else match text d "--grid-type" with
       | Some "fixed" => Ok d
       | Some "dynamic" => match text d "--psycris-inifile" with None => Raise (OtherError "SystemExit") | Some _ => Ok d end
       | _ => Raise (OtherError "SystemExit")
       end.
(** run-grid:804-807: None in a list of inlists is no list; without the option it is a TypeError *)
Definition inlists (d : parsed) (o : string) : result (option (list string)) :=
  match dget String.eqb d o with None => Raise TypeError | Some l => Ok (if sin "None" l then None else Some l) end.
(** run-grid:809-819 *)
Definition forms (d : parsed) (exe o : string) : result bool :=
  rbind (inlists d o) (fun l => Ok (match text d exe, l with Some _, Some _ => true | _, _ => false end)).
