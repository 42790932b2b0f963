(** IgnoreReason, posydon/utils/ignorereason.py. *)
From Coq Require Import String List Bool PeanoNat.
From Verif Require Import PyBase.
Import ListNotations.
Open Scope string_scope.
Open Scope nat_scope.
Open Scope list_scope.

(** ignorereason.py:10-24 *)
Definition priority : list string :=
  ["ignored_no_history1"; "ignored_no_binary_history"; "corrupted_history1"; "corrupted_binary_history";
   "corrupted_history2"; "ignored_scrubbed_history"; "ignored_no_final_profile"; "ignored_no_RLO"].

(** The instance dictionary: the keys "reason" and "order". *)
Record reason_state := RState { r_reason : option string; r_order : option nat }.

(** list.index *)
Fixpoint index_of (x : string) (l : list string) : option nat :=
  match l with
  | [] => None
  | y :: r => if String.eqb x y then Some 0 else option_map S (index_of x r)
  end.

(** __setattr__, ignorereason.py:38-59; the value is None or a string. *)
Definition set_attr (st : reason_state) (name : string) (value : option string) : result reason_state :=
  if negb (String.eqb name "reason") then Ok st
  else match value with
  | None => Ok (RState None None)
  | Some v =>
      match index_of v priority with
      | None => Raise ValueError
      | Some n =>
          match r_reason st, r_order st with
          | Some _, Some o => if n <? o then Ok (RState (Some v) (Some n)) else Ok st
          | None, _ => Ok (RState (Some v) (Some n))
          | Some _, None => Raise TypeError
          end
      end
  end.

(** __init__, ignorereason.py:30-32: both assignments go through __setattr__; the dictionary is
    empty before, which the first assignment does not look at. *)
Definition new_reason : result reason_state :=
  rbind (set_attr (RState None None) "reason" None) (fun st => set_attr st "order" None).

(** __bool__, ignorereason.py:34-36 *)
Definition truth (st : reason_state) : bool := match r_reason st with Some _ => true | None => false end.

(** A user assigning attributes one after another and carrying on after errors: the final state
    and whether each assignment raised. *)
Fixpoint assign_all (st : reason_state) (l : list (string * option string)) : reason_state * list bool :=
  match l with
  | [] => (st, [])
  | (n, v) :: r =>
      match set_attr st n v with
      | Ok st' => let (s, e) := assign_all st' r in (s, false :: e)
      | Raise _ => let (s, e) := assign_all st r in (s, true :: e)
      end
  end.
