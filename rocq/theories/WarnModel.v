(** Model of posydon/utils/posydonwarning.py. *)
From Coq Require Import String List Bool ZArith.
From Verif Require Import PyBase.
Import ListNotations.
Local Open Scope string_scope.

(** A code position: file name and line number of a stack frame. *)
Definition frame := (string * Z)%type.
Definition frame_eqb (a b : frame) : bool :=
  String.eqb (fst a) (fst b) && Z.eqb (snd a) (snd b).

(** The dictionary handed around for one warning; extra options for warnings.warn are left
    out.  Categories are identified by class name. *)
Record warning := W { w_msg : string; w_cat : string; w_level : Z }.
Definition bump (w : warning) : warning := W (w_msg w) (w_cat w) (w_level w + 2).

(** The key of a registry, line 257. *)
Definition key := (string * frame)%type.
Definition key_eqb (a b : key) : bool :=
  String.eqb (fst a) (fst b) && frame_eqb (snd a) (snd b).
Definition registry := list (key * Z).

(** An entry of Python's warnings.filters: an action and its conditions on text, category and
    position (lines 264-269). *)
Inductive action := Ignore | Always | Default | PerModule | Once | Error.
Definition fitem := (action * (string -> string -> frame -> bool))%type.

(** Line numbers of the frames inside posydonwarning.py. *)
Definition HERE := "posydonwarning.py".
Definition F_filter : frame := (HERE, 240)%Z.
Definition F_issue : frame := (HERE, 300)%Z.
Definition F_call : frame := (HERE, 431)%Z.
Definition F_pwarn : frame := (HERE, 585)%Z.
Definition F_enter : frame := (HERE, 535)%Z.
Definition F_exit : frame := (HERE, 557)%Z.

(** Lines 239-248: sys._getframe(level) on a stack, innermost frame first; a level beyond the
    stack gives ("sys", 1), a negative one the innermost frame. *)
Definition frame_at (stk : list frame) (level : Z) : frame :=
  nth (Z.to_nat level) stk ("sys", 1%Z).

(** The process-wide state: dictionaries used as registries (location 0 is the global
    _POSYDON_WARNINGS_REGISTRY), the attributes of the single _CAUGHT_POSYDON_WARNINGS
    object, Python's filters, and the warnings handed to warnings.warn so far. *)
Record pw := PW {
  regs : list registry; catch : bool; record : bool; ffirst : bool; called : bool;
  rloc : nat; cache : list warning; filters : list fitem; emitted : list warning }.

Definition set_regs st x := PW x (catch st) (record st) (ffirst st) (called st) (rloc st) (cache st) (filters st) (emitted st).
Definition set_catch st x := PW (regs st) x (record st) (ffirst st) (called st) (rloc st) (cache st) (filters st) (emitted st).
Definition set_record st x := PW (regs st) (catch st) x (ffirst st) (called st) (rloc st) (cache st) (filters st) (emitted st).
Definition set_ffirst st x := PW (regs st) (catch st) (record st) x (called st) (rloc st) (cache st) (filters st) (emitted st).
Definition set_called st x := PW (regs st) (catch st) (record st) (ffirst st) x (rloc st) (cache st) (filters st) (emitted st).
Definition set_rloc st x := PW (regs st) (catch st) (record st) (ffirst st) (called st) x (cache st) (filters st) (emitted st).
Definition set_cache st x := PW (regs st) (catch st) (record st) (ffirst st) (called st) (rloc st) x (filters st) (emitted st).
Definition set_filters st x := PW (regs st) (catch st) (record st) (ffirst st) (called st) (rloc st) (cache st) x (emitted st).
Definition set_emitted st x := PW (regs st) (catch st) (record st) (ffirst st) (called st) (rloc st) (cache st) (filters st) x.

Definition reg_at (st : pw) (loc : nat) : registry := nth loc (regs st) [].
Fixpoint upd {A} (l : list A) (n : nat) (x : A) : list A :=
  match l, n with
  | [], _ => []
  | _ :: l', O => x :: l'
  | y :: l', S n' => y :: upd l' n' x
  end.
Definition set_reg (st : pw) (loc : nat) (r : registry) : pw := set_regs st (upd (regs st) loc r).

(** lines 262-272 *)
Definition action_of (fs : list fitem) (w : warning) (fr : frame) : action :=
  match find (fun it => snd it (w_msg w) (w_cat w) fr) fs with
  | Some it => fst it
  | None => Default
  end.

(** posydonwarning.py:193-284 for a warning coming from Pwarn (so message, category and level
    have the right types), called from stack [stk]; true means the warning is returned. *)
Definition apply_filter (st : pw) (loc : nat) (stk : list frame) (w : warning) : pw * bool :=
  let fr := frame_at (F_filter :: stk) (w_level w) in
  let k := (w_cat w, fr) in
  match action_of (filters st) w fr with
  | Ignore => (st, false)
  | Error => (st, true)
  | a =>
    match dget key_eqb (reg_at st loc) k with
    | Some n => (set_reg st loc (dset key_eqb (reg_at st loc) k (n + 1)%Z),
                 match a with Always => true | _ => false end)
    | None => (set_reg st loc (dset key_eqb (reg_at st loc) k 1%Z), true)
    end
  end.

(** Python's warnings.warn called from stack [stk]: raises the warning under an "error" filter,
    otherwise the warning counts as issued.  (Whether Python then prints it is Python's own
    filtering.) *)
Definition py_warn (st : pw) (stk : list frame) (w : warning) : pw * option exn :=
  let fr := nth (Z.to_nat (w_level w) - 1) stk ("sys", 1%Z) in
  match action_of (filters st) w fr with
  | Error => (st, Some (OtherError (w_cat w)))
  | _ => (set_emitted st (emitted st ++ [ w ])%list, None)
  end.

(** posydonwarning.py:286-300 *)
Definition issue_warn (st : pw) (loc : nat) (stk : list frame) (w : warning) : pw * option exn :=
  let '(st1, pass) := apply_filter st loc (F_issue :: stk) w in
  if pass then py_warn st1 (F_issue :: stk) w else (st1, None).

(** One entry of change_settings, lines 391-411. *)
Inductive setting :=
| SCatch (b : bool) | SRecord (b : bool) | SFilterFirst (b : bool) | SCalled (b : bool)
| SRegistry (r : option nat) | SCaughtWarnings | SWrongType | SUnknown.
Definition set_one (st : pw) (s : setting) : pw * option exn :=
  match s with
  | SCatch b => (set_catch st b, None)
  | SRecord b => (set_record st b, None)
  | SFilterFirst b => (set_ffirst st b, None)
  | SCalled b => (set_called st b, None)
  | SRegistry None => (set_rloc st 0, None)
  | SRegistry (Some l) => (set_rloc st l, None)
  | SCaughtWarnings => (st, None)
  | SWrongType => (st, Some TypeError)
  | SUnknown => (st, Some AttributeError)
  end.
Fixpoint set_all (st : pw) (l : list setting) : pw * option exn :=
  match l with
  | [] => (st, None)
  | s :: l' => match set_one st s with
               | (st1, None) => set_all st1 l'
               | r => r
               end
  end.

(** lines 415-424: issue the recorded warnings.  The dictionaries in the list are mutated, so
    after an exception the list holds them with raised level. *)
Fixpoint flush (st : pw) (stk : list frame) (done todo : list warning) : pw * option exn :=
  match todo with
  | [] => (set_cache st [], None)
  | w :: todo' =>
    let w1 := bump w in
    match (if ffirst st then py_warn st (F_call :: stk) w1
           else issue_warn st (rloc st) (F_call :: stk) w1) with
    | (st1, None) => flush st1 stk (done ++ [ w1 ])%list todo'
    | (st1, Some e) => (set_cache st1 (done ++ w1 :: todo')%list, Some e)
    end
  end.

(** posydonwarning.py:363-439, _Caught_POSYDON_Warnings.__call__ *)
Definition call (st : pw) (stk : list frame) (new : option warning) (empty : bool)
    (change : option (list setting)) : pw * option exn :=
  let st0 := set_called st true in
  match new, empty, change with
  | None, false, None => (st0, Some ValueError)
  | _, _, _ =>
    let st1 := if empty then set_cache st0 [] else st0 in
    let '(st2, e2) := match change with
      | None => (st1, None)
      | Some l => match set_all st1 l with
                  | (s, Some e) => (s, Some e)
                  | (s, None) => if negb (catch s) && negb (match cache s with [] => true | _ => false end)
                                 then flush s stk [] (cache s) else (s, None)
                  end
      end in
    match e2, new with
    | Some e, _ => (st2, Some e)
    | None, None => (st2, None)
    | None, Some w =>
      if catch st2 then
        let '(st3, keep) := if ffirst st2 then apply_filter st2 (rloc st2) (F_call :: stk) w
                            else (st2, true) in
        (if record st2 && keep then set_cache st3 (cache st3 ++ [ w ])%list else st3, None)
      else issue_warn st2 (rloc st2) (F_call :: stk) (bump w)
    end
  end.

(** lines 484-486 and 454-456 *)
Definition reset_cache (st : pw) : pw := set_cache st [].
Definition got_called (st : pw) : bool := called st.

(** lines 144-145: the known subclass names *)
Definition SUBCLASSES :=
  [ "ApproximationWarning"; "BinaryParsingWarning"; "ClassificationWarning"; "EvolutionWarning";
    "InappropriateValueWarning"; "IncompletenessWarning"; "InterpolationWarning";
    "MissingFilesWarning"; "OverwriteWarning"; "ReplaceValueWarning"; "UnsupportedModelWarning";
    "SFHModelWarning"; "DeprecationWarning"; "ValueWarning"; "InitializationWarning";
    "StepWarning" ].
(** A category argument: a string, a warning class (POSYDON's or Python's), or anything else. *)
Inductive catarg := CatStr (s : string) | CatPosydon (c : string) | CatPython (c : string) | CatOther.

(** lines 147-171, 581-582: the category used by Pwarn; [inr] holds Python's classes (None
    makes warnings.warn use UserWarning). *)
Definition category_of (c : catarg) : string + string :=
  match c with
  | CatStr s => inl (if inb String.eqb s SUBCLASSES then s else "POSYDONWarning")
  | CatPosydon c => inl c
  | CatPython c => inr c
  | CatOther => inr "UserWarning"
  end.

(** posydonwarning.py:562-592; [stk] is the stack of the caller. *)
Definition Pwarn (st : pw) (stk : list frame) (msg : string) (c : catarg) (level : Z)
  : pw * option exn :=
  match category_of c with
  | inl cat => call st (F_pwarn :: stk) (Some (W msg cat level)) false None
  | inr cat => py_warn st (F_pwarn :: stk) (W msg cat level)
  end.

(** lines 492-530: Catch_POSYDON_Warnings.  An own registry is created with the object.
    [use_python_catch] is not modelled. *)
Record ctx := Ctx { c_catch : bool; c_record : bool; c_ffirst : bool; c_reg : option nat }.
Definition make_ctx (st : pw) (ca re ff own : bool) : pw * ctx :=
  if own then (set_regs st (regs st ++ [ [] ])%list, Ctx ca re ff (Some (length (regs st))))
  else (st, Ctx ca re ff None).

(** lines 532-544 *)
Definition enter (st : pw) (stk : list frame) (c : ctx) : pw * option exn :=
  call st (F_enter :: stk) None false
    (Some [ SCatch (c_catch c); SRecord (c_record c); SFilterFirst (c_ffirst c); SCalled false;
            SRegistry (c_reg c) ]).
(** lines 546-559; the exception of the body is not suppressed. *)
Definition leave (st : pw) (stk : list frame) : pw * option exn :=
  call st (F_exit :: stk) None false (Some [ SCatch false; SRegistry None ]).

(** [with c: body]: the body runs unless entering raises, leaving happens whatever the body
    does, and an exception of leaving replaces the one of the body. *)
Definition with_catch (st : pw) (stk : list frame) (c : ctx) (body : pw -> pw * option exn)
  : pw * option exn :=
  match enter st stk c with
  | (st1, Some e) => (st1, Some e)
  | (st1, None) =>
    let '(st2, e2) := body st1 in
    let '(st3, e3) := leave st2 stk in
    (st3, match e3 with Some e => Some e | None => e2 end)
  end.

(** lines 594-630: SetPOSYDONWarnings prepends a filter for the category (and its subclasses,
    [sub]); identical earlier entries, which could not match first, are left in the list. *)
Definition SetPOSYDONWarnings (st : pw) (a : action) (c : catarg) (sub : string -> string -> bool) : pw :=
  match category_of c with
  | inl cat => match c with
               | CatPython _ | CatOther => st
               | _ => set_filters st ((a, fun _ wc _ => sub wc cat) :: filters st)
               end
  | inr _ => st
  end.

(** State when the module has been imported; [fs] are Python's filters. *)
Definition initial (fs : list fitem) : pw := PW [ [] ] false true true false 0 [] fs [].
