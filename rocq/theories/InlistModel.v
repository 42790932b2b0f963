(** The parameters of a template of MESA: clean_inlist_file, posydon/utils/gridutils.py:436-484.

    The file is the list of its lines as [readlines] gives them, of ASCII characters.  A path which cannot be opened is left out.  The keyword [section]
    is None or a text; the other keywords are not used. *)
From Coq Require Import String List Bool.
From Verif Require Import PyBase PyStr PySplit PyStrip.
Import ListNotations.
Open Scope list_scope.
Open Scope string_scope.

(** line 459; [strip('\n').strip()] is [strip()], which takes line breaks away too *)
Definition clean_line (i : string) : string := strip (hd "" (split "!" (strip i))).
(** lines 461-462 *)
Definition relevant (p : string) : bool := negb (String.eqb p "") && (py_in "=" p || py_in "&" p).
(** lines 454-463 *)
Definition param_value_list (lines : list string) : list string := filter relevant (map clean_line lines).
(** [i.split('=', 1)[0].strip()] and [i.split('=', 1)[1].strip()]; only asked of texts with an equals sign *)
Definition key_value (i : string) : string * string :=
  match partition "=" i with Some (a, b) => (strip a, strip b) | None => (strip i, "") end.
(** lines 473 and 480 *)
Definition unset_value (v : string) : bool := existsb (String.eqb v) ["''"; "'.'"].

(** A dict of dicts; the key None only for the section which is not given *)
Definition params := list (option string * list (string * string)).
Definition key_eqb (a b : option string) : bool :=
  match a, b with Some x, Some y => String.eqb x y | None, None => true | _, _ => false end.
Definition section_of (d : params) (k : option string) : list (string * string) := match dget key_eqb d k with Some x => x | None => [] end.

(** lines 477-482; [current_key] has no value before the first section *)
Fixpoint walk (cur : option string) (l : list string) (d : params) : result params :=
  match l with
  | [] => Ok d
  | i :: r =>
      if py_in "&" i then walk (Some i) r d
      else
        let kv := key_value i in
        if unset_value (snd kv) then walk cur r d
        else match cur with
             | None => Raise (OtherError "UnboundLocalError")
             | Some c => walk cur r (dset key_eqb d (Some c) (dset String.eqb (section_of d (Some c)) (fst kv) (snd kv)))
             end
  end.
(** lines 465-484 *)
Definition clean_inlist_file (section : option string) (lines : list string) : result params :=
  let l := param_value_list lines in
  match filter (py_in "&") l with
  | [] => Ok [(section, dset_all String.eqb [] (filter (fun kv => negb (unset_value (snd kv))) (map key_value l)))]
  | heads => walk None l (fold_left (fun d k => dset key_eqb d (Some k) []) heads [])
  end.
