(** Property C43: counting, filtering and catching of warnings. *)
From Coq Require Import String List Bool ZArith Lia.
From Verif Require Import PyBase WarnModel WarnSpec WarnProofs.
Import ListNotations.
Local Open Scope string_scope.

(** Outside a catching context: every occurrence is judged at the line it comes from, the
    registry counts the counted ones, exactly those that pass are handed on, in order, and only
    an error filter raises. *)
Theorem warnings_outside : forall l st before,
  Forall proper l -> catch st = false -> (rloc st < length (regs st))%nat ->
  records (reg_at st (rloc st)) before ->
  let st' := fst (pwarn_all st l) in
  emitted st' = (emitted st ++ map (dict_of 2)
     (filter (fun c => match snd (says (filters st) origin c) with Error => false | _ => true end)
        (passed (says (filters st) origin) before l)))%list
  /\ records (reg_at st' (rloc st)) (before ++ map (says (filters st) origin) l)
  /\ catch st' = false /\ rloc st' = rloc st /\ cache st' = cache st
  /\ snd (pwarn_all st l) = map (fun c => match snd (says (filters st) origin c) with
       | Error => Some (OtherError (cat_name (wc_cat c))) | _ => None end) l.
Proof.
  intros l st before HP HC HL HR.
  destruct (direct_all l st before HP HC HL HR) as (rs & E & L & R & O). rewrite E.
  destruct l; cbn -[out_of] in *.
  - rewrite !app_nil_r. repeat split; auto.
  - repeat split; auto.
Qed.

(** Under the default filter a warning is handed on exactly the first time its (category,
    line) occurs; under "always" every time; an ignored one is neither counted nor shown. *)
Theorem warnings_default_first : forall fs before c a,
  snd (says fs origin c) = a -> In a [ Default; PerModule; Once ] ->
  (passes before (says fs origin c) = true
   <-> ~ exists o, In o before /\ fst o = (cat_name (wc_cat c), origin c) /\ counted (snd o) = true).
Proof.
  intros fs before c a Ha Hin.
  assert (Hp : passes before (says fs origin c) = (times (cat_name (wc_cat c), origin c) before =? 0)%nat).
  { unfold passes. rewrite Ha. cbn in Hin. destruct Hin as [<-|[<-|[<-|[]]]]; reflexivity. }
  rewrite Hp, Nat.eqb_eq. unfold times. rewrite length_zero_iff_nil. split.
  - intros E (o & I & K & C).
    assert (X : key_eqb (fst o) (cat_name (wc_cat c), origin c) && counted (snd o) = true).
    { rewrite C, andb_true_r. destruct (key_eqb_spec (fst o) (cat_name (wc_cat c), origin c)); congruence. }
    assert (Y : In o (filter (fun o => key_eqb (fst o) (cat_name (wc_cat c), origin c) && counted (snd o)) before))
      by (apply filter_In; auto).
    rewrite E in Y. destruct Y.
  - intro N. set (fl := filter (fun o => key_eqb (fst o) (cat_name (wc_cat c), origin c) && counted (snd o)) before).
    change (fl = []). destruct fl as [|o l] eqn:E; [reflexivity|]. subst fl. exfalso. apply N. exists o.
    assert (H : In o (o :: l)) by (left; reflexivity). rewrite <- E in H. apply filter_In in H.
    destruct H as [I B]. apply andb_true_iff in B. destruct B as [B1 B2].
    destruct (key_eqb_spec (fst o) (cat_name (wc_cat c), origin c)); [auto|discriminate].
Qed.
Theorem warnings_always_ignore : forall before k,
  passes before (k, Always) = true /\ passes before (k, Ignore) = false
  /\ counted Always = true /\ counted Ignore = false.
Proof. repeat split. Qed.

(** Inside a catching context with filtering first: nothing is issued and nothing raised by the
    body; on leaving the recorded ones are issued in order, nothing stays recorded, catching is
    off and the global registry is in use again.  An own registry starts empty and the global
    one is untouched.  The judgement is made at [caught_at]. *)
Theorem warnings_context : forall st stk own rec l before,
  idle st -> no_errors (filters st) -> (0 < length (regs st))%nat ->
  records (reg_at st 0) before -> Forall proper l ->
  let mk := make_ctx st true rec true own in
  let seen := if own then [] else before in
  exists rs,
    with_catch (fst mk) stk (snd mk) (pwarn_seq l)
    = (PW rs false rec true true 0 [] (filters st)
         (emitted st ++ if rec then map (dict_of 2) (passed (says (filters st) caught_at) seen l) else []),
       None)
    /\ length rs = (length (regs st) + if own then 1 else 0)%nat
    /\ records (nth (if own then length (regs st) else 0) rs []) (seen ++ map (says (filters st) caught_at) l)
    /\ forall m, (m < length (regs st))%nat -> (own = false -> m <> 0%nat) ->
         nth m rs [] = nth m (regs st) [].
Proof. exact context_filtered. Qed.
Theorem warnings_context_silent : forall st stk c l, cache st = [] -> c_catch c = true -> Forall proper l ->
  (match c_reg c with Some k => k < length (regs st) | None => 0 < length (regs st) end)%nat ->
  (exists before, records (reg_at st (match c_reg c with Some k => k | None => 0%nat end)) before) ->
  let st1 := fst (enter st stk c) in
  emitted (fst (pwarn_seq l st1)) = emitted st /\ snd (pwarn_seq l st1) = None
  /\ got_called (fst (pwarn_seq l st1)) = match l with [] => false | _ => true end.
Proof. exact context_silent. Qed.
(** Without filtering first everything is recorded, and filtered on leaving at the line of the
    with statement through the global registry, even if an own registry was asked for. *)
Theorem warnings_context_unfiltered : forall st stk own l before,
  idle st -> no_errors (filters st) -> (0 < length (regs st))%nat ->
  records (reg_at st 0) before -> Forall proper l ->
  let mk := make_ctx st true true false own in
  let at_with c := says (filters st) (fun c => above stk (wc_level c - 2)) c in
  exists rs,
    with_catch (fst mk) stk (snd mk) (pwarn_seq l)
    = (PW rs false true false true 0 [] (filters st)
         (emitted st ++ map (dict_of 2) (passed at_with before l)), None)
    /\ length rs = (length (regs st) + if own then 1 else 0)%nat
    /\ records (nth 0 rs []) (before ++ map at_with l)
    /\ (own = true -> nth (length (regs st)) rs [] = [])
    /\ forall m, (0 < m < length (regs st))%nat -> nth m rs [] = nth m (regs st) [].
Proof. exact context_raw. Qed.
(** Whatever happened inside, leaving a context ends in the idle state. *)
Theorem warnings_leave_idle : forall st stk, no_errors (filters st) ->
  idle (fst (leave st stk)) /\ snd (leave st stk) = None.
Proof. exact leave_idle. Qed.

(** ** Concrete runs *)
Definition at_a : list frame := [ ("a.py", 10%Z); ("main.py", 3%Z) ].
Definition at_b : list frame := [ ("b.py", 20%Z); ("main.py", 4%Z) ].
Definition wa := WCall at_a "first" (CatStr "StepWarning") 2.
Definition wb := WCall at_b "second" (CatStr "StepWarning") 2.
Definition start := initial [].
Definition always := initial [ (Always, fun _ _ _ => true) ].

Example warnings_hypotheses :
  Forall proper [ wa; wb; wa ] /\ idle start /\ records (reg_at start 0) []
  /\ no_errors (filters start) /\ no_errors (filters always).
Proof.
  split; [|split; [|split; [|split]]].
  - repeat constructor; cbn; lia.
  - repeat split.
  - intro k. reflexivity.
  - intros w fr. discriminate.
  - intros w fr. cbn. discriminate.
Qed.
Example warnings_outside_case :
  emitted (fst (pwarn_all start [ wa; wb; wa ])) = [ dict_of 2 wa; dict_of 2 wb ]
  /\ reg_at (fst (pwarn_all start [ wa; wb; wa ])) 0
     = [ (("StepWarning", ("a.py", 10%Z)), 2%Z); (("StepWarning", ("b.py", 20%Z)), 1%Z) ]
  /\ emitted (fst (pwarn_all always [ wa; wb; wa ])) = map (dict_of 2) [ wa; wb; wa ].
Proof. repeat split. Qed.

(** ** What does not hold *)
(** Warnings from different lines are not told apart while being caught: the second one, from
    another file, is dropped, and the registry blames a line of posydonwarning.py. *)
Theorem warnings_context_line_refuted :
  let mk := make_ctx start true true true true in
  let r := with_catch (fst mk) at_a (snd mk) (pwarn_seq [ wa; wb ]) in
  origin wa <> origin wb
  /\ map w_msg (emitted (fst r)) = [ "first" ]
  /\ nth 1 (regs (fst r)) [] = [ (("StepWarning", F_pwarn), 2%Z) ].
Proof. split; [discriminate|]. split; reflexivity. Qed.
(** Leaving an inner context ends the catching of the outer one, and issues what the outer one
    had recorded. *)
Theorem warnings_nesting_refuted :
  let mk := make_ctx start true true true false in
  let inner st := with_catch st at_b (snd mk) (fun s => (s, None)) in
  let body st := match pwarn_seq [ wa ] st with
    | (s1, None) => match inner s1 with
                    | (s2, None) => (s2, Some (OtherError "stop here"))
                    | r => r end
    | r => r end in
  let mid := fst (inner (fst (pwarn_seq [ wa ] (fst (enter (fst mk) at_a (snd mk)))))) in
  map w_msg (emitted mid) = [ "first" ] /\ catch mid = false
  /\ snd (with_catch (fst mk) at_a (snd mk) body) = Some (OtherError "stop here").
Proof. repeat split. Qed.
(** With an error filter the first recorded warning raised on leaving keeps the rest recorded. *)
Theorem warnings_leave_error_refuted :
  let bad := initial [ (Error, fun _ _ _ => true) ] in
  let mk := make_ctx bad true true true false in
  let r := with_catch (fst mk) at_a (snd mk) (pwarn_seq [ wa; wb ]) in
  snd r = Some (OtherError "StepWarning") /\ map w_msg (cache (fst r)) = [ "first"; "second" ]
  /\ emitted (fst r) = [].
Proof. repeat split. Qed.

Print Assumptions warnings_outside.
Print Assumptions warnings_default_first.
Print Assumptions warnings_context.
Print Assumptions warnings_context_silent.
Print Assumptions warnings_context_unfiltered.
Print Assumptions warnings_leave_idle.
