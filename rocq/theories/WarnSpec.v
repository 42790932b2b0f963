(** What the warning machinery is meant to do. *)
From Coq Require Import String List Bool ZArith.
From Verif Require Import PyBase WarnModel.
Import ListNotations.
Local Open Scope string_scope.

(** One Pwarn call: stack of the caller (innermost first), text, category, stack level. *)
Record wcall := WCall { wc_stack : list frame; wc_msg : string; wc_cat : catarg; wc_level : Z }.

(** POSYDON categories; a string that is no known name stands for the base class. *)
Definition is_posydon (c : catarg) : Prop :=
  match c with CatStr _ | CatPosydon _ => True | _ => False end.
Definition cat_name (c : catarg) : string :=
  match c with
  | CatStr s => if in_dec string_dec s SUBCLASSES then s else "POSYDONWarning"
  | CatPosydon c | CatPython c => c
  | CatOther => "UserWarning"
  end.
Definition proper (c : wcall) : Prop := is_posydon (wc_cat c) /\ (2 <= wc_level c)%Z.

(** Position [n] frames above the innermost of a stack. *)
Definition above (stk : list frame) (n : Z) : frame := nth (Z.to_nat n) stk ("sys", 1%Z).
(** Where a warning comes from: with the default level 2 the line calling Pwarn. *)
Definition origin (c : wcall) : frame := above (wc_stack c) (wc_level c - 2).

(** What the filter looks at instead while warnings are caught: one frame lower, hence with the
    default level always the same line inside Pwarn. *)
Definition caught_at (c : wcall) : frame := above (F_pwarn :: wc_stack c) (wc_level c - 2).

(** An occurrence: the identifying key and what the user's filters say about it. *)
Definition occ := (key * action)%type.
Definition counted (a : action) : bool :=
  match a with Ignore | Error => false | _ => true end.
Definition times (k : key) (l : list occ) : nat :=
  length (filter (fun o => key_eqb (fst o) k && counted (snd o)) l).

(** Is an occurrence passed on, given the earlier ones? *)
Definition passes (before : list occ) (o : occ) : bool :=
  match snd o with
  | Ignore => false
  | Always | Error => true
  | _ => (times (fst o) before =? 0)%nat
  end.
(** The elements of [l] passed on, each judged after the earlier ones. *)
Fixpoint passed {A} (f : A -> occ) (before : list occ) (l : list A) : list A :=
  match l with
  | [] => []
  | x :: l' => (if passes before (f x) then [ x ] else [])
               ++ passed f (before ++ [ f x ])%list l'
  end%list.

(** A registry records exactly the counted occurrences of [l]. *)
Definition records (r : registry) (l : list occ) : Prop := forall k,
  dget key_eqb r k = match times k l with O => None | n => Some (Z.of_nat n) end.

(** What a call says when judged at position [at_]. *)
Definition says (fs : list fitem) (at_ : wcall -> frame) (c : wcall) : occ :=
  ((cat_name (wc_cat c), at_ c),
   action_of fs (W (wc_msg c) (cat_name (wc_cat c)) (wc_level c)) (at_ c)).
(** The warning dictionary of a call, with the level raised by [d]. *)
Definition dict_of (d : Z) (c : wcall) : warning :=
  W (wc_msg c) (cat_name (wc_cat c)) (wc_level c + d).

(** Running calls one after the other, whatever they raise. *)
Fixpoint pwarn_all (st : pw) (l : list wcall) : pw * list (option exn) :=
  match l with
  | [] => (st, [])
  | c :: l' =>
    let '(st1, e) := Pwarn st (wc_stack c) (wc_msg c) (wc_cat c) (wc_level c) in
    let '(st2, es) := pwarn_all st1 l' in (st2, e :: es)
  end.

(** The same as the body of a with statement: the first exception ends it. *)
Fixpoint pwarn_seq (l : list wcall) (st : pw) : pw * option exn :=
  match l with
  | [] => (st, None)
  | c :: l' =>
    match Pwarn st (wc_stack c) (wc_msg c) (wc_cat c) (wc_level c) with
    | (st1, None) => pwarn_seq l' st1
    | r => r
    end
  end.

(** No filter turns warnings into exceptions. *)
Definition no_errors (fs : list fitem) : Prop := forall w fr, action_of fs w fr <> Error.

(** The state between two uses: not catching, global registry in use, nothing recorded. *)
Definition idle (st : pw) : Prop := catch st = false /\ rloc st = 0%nat /\ cache st = [].
