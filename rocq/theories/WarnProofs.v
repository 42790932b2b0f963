From Coq Require Import String List Bool ZArith Lia.
From Verif Require Import PyBase WarnModel WarnSpec.
Import ListNotations.
Local Open Scope string_scope.

Lemma frame_eqb_spec : forall a b, reflect (a = b) (frame_eqb a b).
Proof.
  intros [f n] [g m]. unfold frame_eqb. cbn [fst snd].
  destruct (String.eqb_spec f g); destruct (Z.eqb_spec n m); cbn; constructor; congruence.
Qed.
Lemma key_eqb_spec : forall a b, reflect (a = b) (key_eqb a b).
Proof.
  intros [f n] [g m]. unfold key_eqb. cbn [fst snd].
  destruct (String.eqb_spec f g); destruct (frame_eqb_spec n m); cbn; constructor; congruence.
Qed.

Lemma upd_same : forall A (l : list A) n x d, (n < length l)%nat -> nth n (upd l n x) d = x.
Proof. induction l; intros [|n] x d H; cbn in *; try lia; auto. apply IHl. lia. Qed.
Lemma upd_other : forall A (l : list A) n m x d, n <> m -> nth m (upd l n x) d = nth m l d.
Proof. induction l; intros [|n] [|m] x d H; cbn; try congruence; auto. Qed.
Lemma upd_len : forall A (l : list A) n x, length (upd l n x) = length l.
Proof. induction l; intros [|n] x; cbn; auto. Qed.

Lemma category_name : forall c, is_posydon c -> category_of c = inl (cat_name c).
Proof.
  intros [s|s|s|] H; [|reflexivity|destruct H|destruct H].
  unfold category_of, cat_name.
  destruct (inb_spec String.eqb_spec s SUBCLASSES) as [I|I];
    destruct (in_dec string_dec s SUBCLASSES) as [J|J]; reflexivity || (exfalso; auto).
Qed.

Lemma times_app : forall k a b, times k (a ++ b) = (times k a + times k b)%nat.
Proof. intros. unfold times. rewrite filter_app, app_length. reflexivity. Qed.
Lemma times_one : forall k o,
  times k [ o ] = if key_eqb (fst o) k && counted (snd o) then 1%nat else 0%nat.
Proof. intros. unfold times. cbn. destruct (_ && _); reflexivity. Qed.

Lemma key_sym : forall a b, key_eqb a b = key_eqb b a.
Proof. intros. destruct (key_eqb_spec a b), (key_eqb_spec b a); congruence. Qed.

(** One use of the filter. *)
Lemma filter_step : forall st loc stk w before,
  (loc < length (regs st))%nat -> records (reg_at st loc) before ->
  let o := ((w_cat w, frame_at (F_filter :: stk) (w_level w)),
            action_of (filters st) w (frame_at (F_filter :: stk) (w_level w))) in
  let r := apply_filter st loc stk w in
  records (reg_at (fst r) loc) (before ++ [ o ])
  /\ snd r = passes before o
  /\ (exists rs, fst r = set_regs st rs /\ length rs = length (regs st)
        /\ forall m, m <> loc -> nth m rs [] = nth m (regs st) []).
Proof.
  intros st loc stk w before HL HR o r.
  set (fr := frame_at (F_filter :: stk) (w_level w)) in *.
  set (k := (w_cat w, fr)) in *. set (a := action_of (filters st) w fr) in *.
  assert (Id : exists rs, st = set_regs st rs /\ length rs = length (regs st)
     /\ forall m, m <> loc -> nth m rs [] = nth m (regs st) []).
  { exists (regs st). destruct st; cbn; auto. }
  assert (Uncounted : counted a = false -> records (reg_at st loc) (before ++ [ o ])).
  { intros C k'. rewrite times_app, times_one. unfold o. cbn [fst snd].
    rewrite C, andb_false_r, Nat.add_0_r. apply HR. }
  assert (Counted : counted a = true ->
    apply_filter st loc stk w =
    (set_reg st loc (dset key_eqb (reg_at st loc) k
       (match dget key_eqb (reg_at st loc) k with Some n => n + 1 | None => 1 end)%Z),
     match dget key_eqb (reg_at st loc) k with
     | Some _ => match a with Always => true | _ => false end | None => true end)).
  { intro C. unfold apply_filter. fold fr. fold k. fold a.
    destruct a; try discriminate; destruct (dget key_eqb (reg_at st loc) k); reflexivity. }
  destruct (counted a) eqn:C.
  - subst r. rewrite (Counted eq_refl). cbn [fst snd].
    split; [|split].
    + intro k'. unfold reg_at at 1. unfold set_reg. cbn [regs set_regs].
      rewrite upd_same by exact HL. rewrite (dget_dset key_eqb_spec).
      rewrite times_app, times_one. unfold o. cbn [fst snd]. rewrite C, andb_true_r.
      rewrite key_sym. destruct (key_eqb_spec k k') as [<-|N].
      * rewrite HR. destruct (times k before); cbn [Nat.add]; [reflexivity|].
        replace (Datatypes.S n + 1)%nat with (Datatypes.S (Datatypes.S n)) by lia.
        f_equal. lia.
      * rewrite Nat.add_0_r. apply HR.
    + unfold passes, o. cbn [fst snd]. rewrite (HR k).
      destruct a; try discriminate; destruct (times k before); reflexivity.
    + exists (upd (regs st) loc (dset key_eqb (reg_at st loc) k
        (match dget key_eqb (reg_at st loc) k with Some n => n + 1 | None => 1 end)%Z)).
      split; [reflexivity|]. split; [apply upd_len|]. intros m N. apply upd_other. auto.
  - assert (E : apply_filter st loc stk w = (st, match a with Ignore => false | _ => true end)).
    { unfold apply_filter. fold fr. fold k. fold a. destruct a; try discriminate; reflexivity. }
    subst r. rewrite E. cbn [fst snd]. split; [auto|]. split; [|exact Id].
    unfold passes, o. cbn [snd]. destruct a; try discriminate; reflexivity.
Qed.

Lemma frame_at_skip : forall fs stk n, (Z.of_nat (length fs) <= n)%Z ->
  frame_at (fs ++ stk) n = above stk (n - Z.of_nat (length fs)).
Proof.
  intros fs stk n H. unfold frame_at, above. rewrite app_nth2 by lia. f_equal. lia.
Qed.

(** ** Outside a context *)
Lemma pwarn_direct : forall st c before,
  proper c -> catch st = false -> (rloc st < length (regs st))%nat ->
  records (reg_at st (rloc st)) before ->
  let o := says (filters st) origin c in
  exists rs,
    Pwarn st (wc_stack c) (wc_msg c) (wc_cat c) (wc_level c)
    = (set_emitted (set_regs (set_called st true) rs)
         (emitted st ++ (if passes before o && match snd o with Error => false | _ => true end
                         then [ dict_of 2 c ] else [])),
       match snd o with Error => Some (OtherError (cat_name (wc_cat c))) | _ => None end)
    /\ length rs = length (regs st)
    /\ records (nth (rloc st) rs []) (before ++ [ o ])
    /\ forall m, m <> rloc st -> nth m rs [] = nth m (regs st) [].
Proof.
  intros st c before [HP HLv] HC HL HR o.
  unfold Pwarn. rewrite (category_name _ HP). unfold call.
  set (st0 := set_called st true).
  assert (C0 : catch st0 = false) by exact HC. rewrite C0.
  change (bump (W (wc_msg c) (cat_name (wc_cat c)) (wc_level c))) with (dict_of 2 c).
  unfold issue_warn.
  set (stk := F_issue :: F_call :: F_pwarn :: wc_stack c).
  destruct (filter_step st0 (rloc st0) stk (dict_of 2 c) before HL HR) as (A & B & rs & D & E & F).
  assert (Pos : frame_at (F_filter :: stk) (w_level (dict_of 2 c)) = origin c).
  { unfold stk, origin, dict_of. cbn [w_level].
    change (F_filter :: F_issue :: F_call :: F_pwarn :: wc_stack c)
      with ([F_filter; F_issue; F_call; F_pwarn] ++ wc_stack c)%list.
    rewrite frame_at_skip by (cbn; lia).
    f_equal. cbn. lia. }
  assert (Act : action_of (filters st0) (dict_of 2 c) (origin c) = snd o) by reflexivity.
  rewrite Pos, Act in *.
  change (w_cat (dict_of 2 c), origin c) with (fst o) in *.
  rewrite <- surjective_pairing in *.
  destruct (apply_filter st0 (rloc st0) stk (dict_of 2 c)) as [st1 pass] eqn:EQ.
  cbn [fst snd] in A, B, D. subst st1. rewrite B.
  exists rs. split; [|split; [exact E|split; [|exact F]]].
  - destruct (passes before o) eqn:P.
    + unfold py_warn.
      assert (Pos' : nth (Z.to_nat (w_level (dict_of 2 c)) - 1) stk ("sys", 1%Z) = origin c).
      { unfold stk, origin, dict_of, above. cbn [w_level].
        replace (Z.to_nat (wc_level c + 2) - 1)%nat with (3 + Z.to_nat (wc_level c - 2))%nat by lia.
        reflexivity. }
      rewrite Pos'. cbn [filters set_regs]. rewrite Act. unfold st0.
      destruct (snd o); try reflexivity.
      destruct st; cbn. rewrite app_nil_r. reflexivity.
    + cbn [andb]. unfold passes in P. unfold st0.
      destruct (snd o); try discriminate; destruct st; cbn; rewrite app_nil_r; reflexivity.
  - exact A.
Qed.

(** The warnings handed to Python, and the exceptions, of a sequence of calls. *)
Definition out_of (fs : list fitem) (before : list occ) (l : list wcall) : list warning :=
  map (dict_of 2)
    (filter (fun c => match snd (says fs origin c) with Error => false | _ => true end)
       (passed (says fs origin) before l)).

Lemma out_cons : forall fs before c l,
  out_of fs before (c :: l)
  = ((if passes before (says fs origin c)
         && match snd (says fs origin c) with Error => false | _ => true end
      then [ dict_of 2 c ] else [])
     ++ out_of fs (before ++ [ says fs origin c ]) l)%list.
Proof.
  intros. unfold out_of. cbn [passed]. rewrite filter_app, map_app. f_equal.
  destruct (passes before (says fs origin c)); [|reflexivity].
  cbn [filter andb]. destruct (snd (says fs origin c)); reflexivity.
Qed.

Lemma set_chain : forall st rs e rs' e',
  set_emitted (set_regs (set_called (set_emitted (set_regs (set_called st true) rs) e) true) rs') e'
  = set_emitted (set_regs (set_called st true) rs') e'.
Proof. reflexivity. Qed.

Lemma direct_all : forall l st before,
  Forall proper l -> catch st = false -> (rloc st < length (regs st))%nat ->
  records (reg_at st (rloc st)) before ->
  exists rs,
    pwarn_all st l
    = (match l with [] => st | _ =>
         set_emitted (set_regs (set_called st true) rs) (emitted st ++ out_of (filters st) before l)
       end,
       map (fun c => match snd (says (filters st) origin c) with
                     | Error => Some (OtherError (cat_name (wc_cat c))) | _ => None end) l)
    /\ length rs = length (regs st)
    /\ records (nth (rloc st) rs []) (before ++ map (says (filters st) origin) l)
    /\ forall m, m <> rloc st -> nth m rs [] = nth m (regs st) [].
Proof.
  induction l as [|c l IH]; intros st before HP HC HL HR.
  - exists (regs st). cbn. rewrite app_nil_r. auto.
  - inversion HP as [|? ? P1 P2]; subst.
    destruct (pwarn_direct st c before P1 HC HL HR) as (rs & E & L & R & O).
    cbn [pwarn_all]. rewrite E.
    match goal with |- context [pwarn_all ?s l] => set (st1 := s) end.
    assert (L1 : (rloc st1 < length (regs st1))%nat) by (cbn; rewrite L; exact HL).
    destruct (IH st1 (before ++ [ says (filters st) origin c ])%list P2 HC L1 R)
      as (rs' & E' & L' & R' & O').
    rewrite E'. cbn [filters st1 set_emitted set_regs set_called] in *.
    destruct l as [|c' l'].
    + exists rs. cbn [map] in *. split; [|split; [|split]]; auto.
      f_equal. unfold st1. rewrite out_cons. unfold out_of. cbn [passed filter map].
      rewrite app_nil_r. reflexivity.
    + exists rs'. split; [|split; [|split]].
      * f_equal. unfold st1. rewrite set_chain. cbn [emitted set_emitted].
        rewrite (out_cons _ _ c), <- app_assoc. reflexivity.
      * rewrite L'. exact L.
      * cbn [map]. rewrite <- app_assoc in R'. exact R'.
      * intros m N. rewrite O' by exact N. apply O. exact N.
Qed.

(** ** Inside a catching context *)

Lemma pwarn_catch_filtered : forall st c before,
  proper c -> catch st = true -> ffirst st = true -> (rloc st < length (regs st))%nat ->
  records (reg_at st (rloc st)) before ->
  let o := says (filters st) caught_at c in
  exists rs,
    Pwarn st (wc_stack c) (wc_msg c) (wc_cat c) (wc_level c)
    = (set_cache (set_regs (set_called st true) rs)
         (cache st ++ (if record st && passes before o then [ dict_of 0 c ] else [])), None)
    /\ length rs = length (regs st)
    /\ records (nth (rloc st) rs []) (before ++ [ o ])
    /\ forall m, m <> rloc st -> nth m rs [] = nth m (regs st) [].
Proof.
  intros st c before [HP HLv] HC HF HL HR o.
  unfold Pwarn. rewrite (category_name _ HP). unfold call.
  set (st0 := set_called st true).
  assert (C0 : catch st0 = true) by exact HC.
  assert (F0 : ffirst st0 = true) by exact HF. rewrite C0, F0.
  assert (W0 : W (wc_msg c) (cat_name (wc_cat c)) (wc_level c) = dict_of 0 c)
    by (unfold dict_of; rewrite Z.add_0_r; reflexivity).
  rewrite W0.
  set (stk := F_call :: F_pwarn :: wc_stack c).
  destruct (filter_step st0 (rloc st0) stk (dict_of 0 c) before HL HR) as (A & B & rs & D & E & F).
  assert (Pos : frame_at (F_filter :: stk) (w_level (dict_of 0 c)) = caught_at c).
  { unfold stk, caught_at, dict_of. cbn [w_level].
    change (F_filter :: F_call :: F_pwarn :: wc_stack c) with ([F_filter; F_call] ++ (F_pwarn :: wc_stack c))%list.
    rewrite frame_at_skip by (cbn; lia). f_equal. cbn. lia. }
  assert (Act : action_of (filters st0) (dict_of 0 c) (caught_at c) = snd o)
    by (rewrite <- W0; reflexivity).
  rewrite Pos, Act in *.
  change (w_cat (dict_of 0 c), caught_at c) with (fst o) in *.
  rewrite <- surjective_pairing in *.
  destruct (apply_filter st0 (rloc st0) stk (dict_of 0 c)) as [st1 pass].
  cbn [fst snd] in A, B, D. subst st1. rewrite B.
  exists rs. split; [|split; [exact E|split; [exact A|exact F]]].
  change (record st0) with (record st).
  destruct (record st && passes before o); [reflexivity|].
  unfold st0. destruct st; cbn. rewrite app_nil_r. reflexivity.
Qed.

Lemma set_chain2 : forall st rs e rs' e',
  set_cache (set_regs (set_called (set_cache (set_regs (set_called st true) rs) e) true) rs') e'
  = set_cache (set_regs (set_called st true) rs') e'.
Proof. reflexivity. Qed.

Lemma catch_all : forall l st before,
  Forall proper l -> catch st = true -> ffirst st = true -> (rloc st < length (regs st))%nat ->
  records (reg_at st (rloc st)) before ->
  exists rs,
    pwarn_seq l st
    = (match l with [] => st | _ =>
         set_cache (set_regs (set_called st true) rs)
          (cache st ++ if record st then map (dict_of 0) (passed (says (filters st) caught_at) before l) else [])
       end, None)
    /\ length rs = length (regs st)
    /\ records (nth (rloc st) rs []) (before ++ map (says (filters st) caught_at) l)
    /\ forall m, m <> rloc st -> nth m rs [] = nth m (regs st) [].
Proof.
  induction l as [|c l IH]; intros st before HP HC HF HL HR.
  - exists (regs st). cbn. rewrite app_nil_r. auto.
  - inversion HP as [|? ? P1 P2]; subst.
    destruct (pwarn_catch_filtered st c before P1 HC HF HL HR) as (rs & E & L & R & O).
    cbn [pwarn_seq]. rewrite E.
    match goal with |- context [pwarn_seq l ?s] => set (st1 := s) end.
    assert (L1 : (rloc st1 < length (regs st1))%nat) by (cbn; rewrite L; exact HL).
    destruct (IH st1 (before ++ [ says (filters st) caught_at c ])%list P2 HC HF L1 R)
      as (rs' & E' & L' & R' & O').
    rewrite E'. cbn [filters st1 set_cache set_regs set_called] in *.
    destruct l as [|c' l'].
    + exists rs. cbn [map] in *. split; [|split; [|split]]; auto.
      f_equal. unfold st1. cbn [passed map]. rewrite app_nil_r. f_equal. f_equal.
      destruct (record st); [|reflexivity]. cbn [andb].
      destruct (passes before (says (filters st) caught_at c)); reflexivity.
    + exists rs'. split; [|split; [|split]].
      * f_equal. unfold st1. rewrite set_chain2. cbn [cache set_cache record].
        rewrite <- app_assoc. f_equal. f_equal.
        remember (c' :: l') as ll. cbn [passed].
        change (record (set_regs (set_called st true) rs)) with (record st).
        destruct (record st); [|reflexivity]. cbn [andb]. rewrite map_app. f_equal.
        destruct (passes before (says (filters st) caught_at c)); reflexivity.
      * rewrite L'. exact L.
      * cbn [map]. rewrite <- app_assoc in R'. exact R'.
      * intros m N. rewrite O' by exact N. apply O. exact N.
Qed.

Lemma pwarn_catch_raw : forall st c,
  proper c -> catch st = true -> ffirst st = false ->
  Pwarn st (wc_stack c) (wc_msg c) (wc_cat c) (wc_level c)
  = (if record st then set_cache (set_called st true) (cache st ++ [ dict_of 0 c ])
     else set_called st true, None).
Proof.
  intros st c [HP HLv] HC HF. unfold Pwarn. rewrite (category_name _ HP). unfold call.
  cbn [catch ffirst record cache set_called]. rewrite HC, HF.
  unfold dict_of. rewrite Z.add_0_r. destruct (record st); reflexivity.
Qed.

Lemma catch_all_raw : forall l st,
  Forall proper l -> catch st = true -> ffirst st = false ->
  pwarn_seq l st
  = (match l with [] => st | _ =>
       set_cache (set_called st true)
         (cache st ++ if record st then map (dict_of 0) l else [])
     end, None).
Proof.
  induction l as [|c l IH]; intros st HP HC HF; [reflexivity|].
  inversion HP as [|? ? P1 P2]; subst.
  cbn [pwarn_seq]. rewrite (pwarn_catch_raw st c P1 HC HF).
  destruct (record st) eqn:Rc.
  - rewrite IH by auto. destruct l as [|c' l']; [reflexivity|].
    cbn [set_cache set_called record cache]. rewrite Rc. f_equal.
    rewrite <- app_assoc. reflexivity.
  - rewrite IH by auto. destruct l as [|c' l'].
    + rewrite app_nil_r. destruct st; reflexivity.
    + cbn [set_called record cache]. rewrite Rc. destruct st; reflexivity.
Qed.

(** ** Entering and leaving *)
Lemma enter_idle : forall st stk c, cache st = [] ->
  enter st stk c
  = (PW (regs st) (c_catch c) (c_record c) (c_ffirst c) false
        (match c_reg c with Some l => l | None => 0 end) [] (filters st) (emitted st), None).
Proof.
  intros st stk c H. unfold enter, call. cbn [set_all set_one].
  destruct st as [rg ca re ff cl rl cs fs em]. cbn in *. subst cs.
  destruct c as [c1 c2 c3 [l|]]; cbn; rewrite andb_false_r; reflexivity.
Qed.

(** Entering a context that does catch leaves already recorded warnings where they are. *)
Lemma enter_catching : forall st stk c, c_catch c = true ->
  enter st stk c
  = (PW (regs st) true (c_record c) (c_ffirst c) false
        (match c_reg c with Some l => l | None => 0 end) (cache st) (filters st) (emitted st), None).
Proof.
  intros st stk c H. unfold enter, call. cbn [set_all set_one].
  destruct st as [rg ca re ff cl rl cs fs em]. cbn in *.
  destruct c as [c1 c2 c3 [l|]]; cbn in *; subst c1; reflexivity.
Qed.

Lemma flush_filtered : forall todo st stk done,
  ffirst st = true -> no_errors (filters st) ->
  flush st stk done todo
  = (set_cache (set_emitted st (emitted st ++ map bump todo)) [], None).
Proof.
  induction todo as [|w todo IH]; intros st stk done HF HN.
  - cbn. rewrite app_nil_r. destruct st; reflexivity.
  - cbn [flush]. rewrite HF. unfold py_warn.
    destruct (action_of _ _ _) eqn:E; try (exfalso; eapply HN; exact E);
      (rewrite IH by auto; cbn [set_emitted emitted map]; rewrite <- app_assoc; reflexivity).
Qed.

Lemma leave_filtered : forall st stk, ffirst st = true -> no_errors (filters st) ->
  leave st stk
  = (PW (regs st) false (record st) true true 0 [] (filters st)
        (emitted st ++ map bump (cache st)), None).
Proof.
  intros st stk HF HN. unfold leave, call. cbn [set_all set_one].
  destruct st as [rg ca re ff cl rl cs fs em]. cbn in HF, HN |- *. subst ff.
  destruct cs as [|w cs]; cbn [negb].
  - rewrite app_nil_r. reflexivity.
  - rewrite flush_filtered by (exact HN || reflexivity). reflexivity.
Qed.

(** Flushing unfiltered records goes through the registry in use, global on leaving. *)
Lemma flush_raw : forall todo st stk done before,
  ffirst st = false -> no_errors (filters st) ->
  (rloc st < length (regs st))%nat -> records (reg_at st (rloc st)) before ->
  let at_ w := frame_at (F_filter :: F_issue :: F_call :: stk) (w_level w) in
  let oc w := ((w_cat w, at_ w), action_of (filters st) w (at_ w)) in
  exists rs,
    flush st stk done todo
    = (set_cache (set_emitted (set_regs st rs)
        (emitted st ++ passed oc before (map bump todo))) [], None)
    /\ length rs = length (regs st)
    /\ records (nth (rloc st) rs []) (before ++ map oc (map bump todo))
    /\ forall m, m <> rloc st -> nth m rs [] = nth m (regs st) [].
Proof.
  induction todo as [|w todo IH]; intros st stk done before HF HN HL HR at_ oc.
  - exists (regs st). cbn. rewrite !app_nil_r. destruct st; cbn; auto.
  - cbn [flush]. rewrite HF. unfold issue_warn.
    destruct (filter_step st (rloc st) (F_issue :: F_call :: stk) (bump w) before HL HR)
      as (A & B & rs & D & E & F).
    fold (at_ (bump w)) in *.
    change (w_cat (bump w), at_ (bump w), action_of (filters st) (bump w) (at_ (bump w))) with (oc (bump w)) in *.
    destruct (apply_filter st (rloc st) (F_issue :: F_call :: stk) (bump w)) as [st1 pass].
    cbn [fst snd] in A, B, D. subst st1. rewrite B.
    assert (K : forall e', (let st2 := set_emitted (set_regs st rs) e' in
      exists rs',
        flush st2 stk (done ++ [ bump w ]) todo
        = (set_cache (set_emitted (set_regs st rs')
            (e' ++ passed oc (before ++ [ oc (bump w) ]) (map bump todo))) [], None)
        /\ length rs' = length (regs st)
        /\ records (nth (rloc st) rs' []) ((before ++ [ oc (bump w) ]) ++ map oc (map bump todo))
        /\ forall m, m <> rloc st -> nth m rs' [] = nth m (regs st) [])%list).
    { intros e' st2.
      assert (L2 : (rloc st2 < length (regs st2))%nat) by (cbn; rewrite E; exact HL).
      destruct (IH st2 stk (done ++ [ bump w ])%list (before ++ [ oc (bump w) ])%list HF HN L2 A)
        as (rs' & E' & L' & R' & O').
      exists rs'. split; [exact E'|]. split; [rewrite L'; exact E|]. split; [exact R'|].
      intros m N. rewrite O' by exact N. apply F. exact N. }
    cbn [map passed]. 
    destruct (passes before (oc (bump w))).
    + unfold py_warn.
      destruct (action_of (filters (set_regs st rs)) (bump w) _) eqn:Ac;
        try (exfalso; eapply HN; exact Ac);
        (destruct (K (emitted st ++ [ bump w ])%list) as (rs' & E' & L' & R' & O');
         exists rs'; cbn [set_emitted emitted set_regs]; split;
           [ etransitivity; [exact E'|]; rewrite <- app_assoc; reflexivity
           | split; [exact L'|split; [rewrite <- app_assoc in R'; exact R'|exact O']] ]).
    + destruct (K (emitted st)) as (rs' & E' & L' & R' & O').
      assert (Same : set_emitted (set_regs st rs) (emitted st) = set_regs st rs) by (destruct st; reflexivity).
      cbn zeta in E'. rewrite Same in E'.
      exists rs'. split; [exact E'|]. split; [exact L'|]. split; [|exact O'].
      rewrite <- app_assoc in R'. exact R'.
Qed.

Lemma leave_raw : forall st stk before, ffirst st = false -> no_errors (filters st) ->
  (0 < length (regs st))%nat -> records (reg_at st 0) before ->
  let at_ w := frame_at (F_filter :: F_issue :: F_call :: F_exit :: stk) (w_level w) in
  let oc w := ((w_cat w, at_ w), action_of (filters st) w (at_ w)) in
  exists rs,
    leave st stk
    = (PW rs false (record st) false true 0 [] (filters st)
        (emitted st ++ passed oc before (map bump (cache st))), None)
    /\ length rs = length (regs st)
    /\ records (nth 0 rs []) (before ++ map oc (map bump (cache st)))
    /\ forall m, m <> 0%nat -> nth m rs [] = nth m (regs st) [].
Proof.
  intros st stk before HF HN HL HR at_ oc. unfold leave, call. cbn [set_all set_one].
  destruct st as [rg ca re ff cl rl cs fs em]. cbn in HF, HN, HL, HR |- *. subst ff.
  destruct cs as [|w cs]; cbn [negb].
  - exists rg. cbn. rewrite !app_nil_r. auto.
  - pose (st' := PW rg false re false true 0 (w :: cs) fs em).
    destruct (flush_raw (w :: cs) st' (F_exit :: stk) [] before eq_refl HN HL HR)
      as (rs & E & L & R & O).
    exists rs. unfold set_called, set_catch, set_rloc. cbn [regs catch record ffirst called rloc cache filters emitted].
    fold st'. rewrite E. split; [reflexivity|]. auto.
Qed.

(** ** What leaving guarantees after any body *)
Lemma leave_idle : forall st stk, no_errors (filters st) -> idle (fst (leave st stk)) /\ snd (leave st stk) = None.
Proof.
  intros st stk HN. unfold leave, call. cbn [set_all set_one].
  set (s := set_rloc _ _).
  assert (Hs : catch s = false /\ rloc s = 0%nat /\ filters s = filters st) by (repeat split).
  clearbody s. destruct Hs as (H1 & H2 & H3). rewrite H1. cbn [negb andb].
  assert (G : forall todo s done, catch s = false -> rloc s = 0%nat -> no_errors (filters s) ->
     idle (fst (flush s (F_exit :: stk) done todo)) /\ snd (flush s (F_exit :: stk) done todo) = None).
  { clear. induction todo as [|w todo IH]; intros s done H1 H2 H3.
    - cbn. repeat split; assumption.
    - cbn [flush]. destruct (ffirst s).
      + unfold py_warn. destruct (action_of _ _ _) eqn:E; try (exfalso; eapply H3; exact E); apply IH; auto.
      + unfold issue_warn. destruct (apply_filter _ _ _ _) as [s1 p] eqn:E.
        assert (Hs1 : catch s1 = false /\ rloc s1 = 0%nat /\ filters s1 = filters s).
        { unfold apply_filter in E. destruct (action_of _ _ _); try destruct (dget _ _ _);
            injection E as <- <-; cbn; auto. }
        destruct Hs1 as (A & B & C).
        assert (N1 : no_errors (filters s1)) by (rewrite C; exact H3).
        destruct p.
        * unfold py_warn. destruct (action_of _ _ _) eqn:E2; try (exfalso; eapply N1; exact E2); apply IH; auto.
        * apply IH; auto. }
  destruct (cache s) as [|w cs] eqn:Ec; cbn [negb].
  - repeat split; assumption.
  - assert (HNs : no_errors (filters s)) by (rewrite H3; exact HN).
    specialize (G (w :: cs) s [] H1 H2 HNs).
    destruct (flush s (F_exit :: stk) [] (w :: cs)) as [s' [e|]]; cbn in *; intuition discriminate.
Qed.

(** ** The whole with statement *)
Lemma context_filtered : forall st stk own rec l before,
  idle st -> no_errors (filters st) -> (0 < length (regs st))%nat ->
  records (reg_at st 0) before -> Forall proper l ->
  let mk := make_ctx st true rec true own in
  let seen := if own then [] else before in
  exists rs,
    with_catch (fst mk) stk (snd mk) (pwarn_seq l)
    = (PW rs false rec true true 0 [] (filters st)
         (emitted st ++ if rec then map (dict_of 2) (passed (says (filters st) caught_at) seen l) else []),
       None)
    /\ length rs = (length (regs st) + if own then 1 else 0)%nat
    /\ records (nth (if own then length (regs st) else 0) rs []) (seen ++ map (says (filters st) caught_at) l)
    /\ forall m, (m < length (regs st))%nat -> (own = false -> m <> 0%nat) ->
         nth m rs [] = nth m (regs st) [].
Proof.
  intros st stk own rec l before (I1 & I2 & I3) HN HL HR HP mk seen.
  unfold with_catch.
  assert (Hmk : exists rg loc, fst mk = set_regs st rg
     /\ snd mk = Ctx true rec true (if own then Some loc else None)
     /\ loc = (if own then length (regs st) else 0%nat)
     /\ rg = (regs st ++ if own then [ [] ] else [])%list).
  { subst mk. unfold make_ctx. destruct own; cbn [fst snd].
    - eexists _, (length (regs st)). repeat split.
    - exists (regs st), 0%nat. rewrite app_nil_r. repeat split. destruct st; reflexivity. }
  destruct Hmk as (rg & loc & -> & -> & Eloc & Erg).
  rewrite enter_idle by exact I3. cbn [c_catch c_record c_ffirst c_reg set_regs regs filters emitted].
  assert (El : match (if own then Some loc else None) with Some l0 => l0 | None => 0%nat end = loc)
    by (destruct own; auto). rewrite El.
  set (st1 := PW rg true rec true false loc [] (filters st) (emitted st)).
  assert (L1 : (rloc st1 < length (regs st1))%nat).
  { cbn. subst. rewrite app_length. destruct own; cbn; lia. }
  assert (R1 : records (reg_at st1 (rloc st1)) seen).
  { unfold reg_at. cbn. subst rg loc seen. destruct own.
    - rewrite app_nth2, Nat.sub_diag by lia. intro k. reflexivity.
    - rewrite app_nil_r. exact HR. }
  destruct (catch_all l st1 seen HP eq_refl eq_refl L1 R1) as (rs & E & L & R & O).
  rewrite E. clear E.
  assert (Len : length rs = (length (regs st) + (if own then 1 else 0))%nat).
  { rewrite L. cbn. subst rg. rewrite app_length. destruct own; reflexivity. }
  assert (Keep : forall m, (m < length (regs st))%nat -> (own = false -> m <> 0%nat) ->
         nth m rs [] = nth m (regs st) []).
  { intros m M1 M2. rewrite O.
    - cbn. subst rg. apply app_nth1. exact M1.
    - cbn. subst loc. destruct own; [lia|auto]. }
  destruct l as [|c l].
  - exists rg. rewrite leave_filtered; [|reflexivity|exact HN].
    cbn [regs record st1 cache filters emitted map passed].
    split; [destruct rec; reflexivity|]. split; [subst rg; rewrite app_length; destruct own; reflexivity|].
    split.
    + rewrite app_nil_r. cbn in R1. rewrite <- Eloc. exact R1.
    + intros m M1 M2. subst rg. apply app_nth1. exact M1.
  - exists rs. rewrite leave_filtered; [|reflexivity|exact HN].
    cbn [regs record st1 cache filters emitted set_cache set_regs set_called app].
    split; [|split; [exact Len|split; [rewrite <- Eloc; exact R|exact Keep]]].
    f_equal. f_equal. f_equal. destruct rec; [|reflexivity].
    rewrite map_map. apply map_ext. intro a. unfold bump, dict_of. cbn.
    rewrite <- Z.add_assoc. reflexivity.
Qed.

(** Nothing is issued while the body runs. *)
Lemma context_silent : forall st stk c l, cache st = [] -> c_catch c = true -> Forall proper l ->
  (match c_reg c with Some k => k < length (regs st) | None => 0 < length (regs st) end)%nat ->
  (exists before, records (reg_at st (match c_reg c with Some k => k | None => 0%nat end)) before) ->
  let st1 := fst (enter st stk c) in
  emitted (fst (pwarn_seq l st1)) = emitted st /\ snd (pwarn_seq l st1) = None
  /\ called (fst (pwarn_seq l st1)) = match l with [] => false | _ => true end.
Proof.
  intros st stk c l HC Hc HP HL (before & HR) st1. subst st1. rewrite enter_idle by exact HC.
  cbn [fst]. rewrite Hc. destruct (c_ffirst c) eqn:F.
  - destruct (catch_all l (PW (regs st) true (c_record c) true false
        (match c_reg c with Some k => k | None => 0%nat end) [] (filters st) (emitted st)) before)
      as (rs & E & _); auto.
    + cbn. destruct (c_reg c); exact HL.
    + rewrite E. destruct l; cbn; auto.
  - rewrite catch_all_raw by auto. destruct l; cbn; auto.
Qed.

(** Unfiltered recording: everything is kept, and filtered on leaving — through the global
    registry, as if it came from the line of the with statement. *)
Lemma passed_map : forall A B (g : A -> B) (f : B -> occ) (f' : A -> occ) l before,
  (forall a, In a l -> f (g a) = f' a) ->
  passed f before (map g l) = map g (passed f' before l).
Proof.
  induction l as [|a l IH]; intros before H; [reflexivity|].
  cbn [map passed]. rewrite H by (left; reflexivity). rewrite IH by (intros; apply H; right; assumption).
  rewrite map_app. f_equal. destruct (passes _ _); reflexivity.
Qed.

Lemma context_raw : forall st stk own l before,
  idle st -> no_errors (filters st) -> (0 < length (regs st))%nat ->
  records (reg_at st 0) before -> Forall proper l ->
  let mk := make_ctx st true true false own in
  let at_with c := says (filters st) (fun c => above stk (wc_level c - 2)) c in
  exists rs,
    with_catch (fst mk) stk (snd mk) (pwarn_seq l)
    = (PW rs false true false true 0 [] (filters st)
         (emitted st ++ map (dict_of 2) (passed at_with before l)), None)
    /\ length rs = (length (regs st) + if own then 1 else 0)%nat
    /\ records (nth 0 rs []) (before ++ map at_with l)
    /\ (own = true -> nth (length (regs st)) rs [] = [])
    /\ forall m, (0 < m < length (regs st))%nat -> nth m rs [] = nth m (regs st) [].
Proof.
  intros st stk own l before (I1 & I2 & I3) HN HL HR HP mk at_with.
  unfold with_catch.
  assert (Hmk : fst mk = set_regs st (regs st ++ if own then [ [] ] else [])%list
     /\ snd mk = Ctx true true false (if own then Some (length (regs st)) else None)).
  { subst mk. unfold make_ctx. destruct own; cbn [fst snd]; rewrite ?app_nil_r; split; auto.
    destruct st; reflexivity. }
  destruct Hmk as (-> & ->).
  rewrite enter_idle by exact I3. cbn [c_catch c_record c_ffirst c_reg set_regs regs filters emitted].
  rewrite catch_all_raw by auto. cbn [record].
  set (rg := (regs st ++ (if own then [ [] ] else []))%list).
  match goal with |- context [leave ?s stk] => set (st2 := s) end.
  assert (S2 : ffirst st2 = false /\ filters st2 = filters st /\ regs st2 = rg /\ record st2 = true
    /\ emitted st2 = emitted st /\ cache st2 = map (dict_of 0) l)
    by (subst st2; destruct l; repeat split).
  clearbody st2. destruct S2 as (A1 & A2 & A3 & A4 & A5 & A6).
  assert (L2 : (0 < length (regs st2))%nat) by (rewrite A3; unfold rg; rewrite app_length; lia).
  assert (R2 : records (reg_at st2 0) before).
  { unfold reg_at. rewrite A3. unfold rg. rewrite app_nth1 by lia. exact HR. }
  assert (HN2 : no_errors (filters st2)) by (rewrite A2; exact HN).
  destruct (leave_raw st2 stk before A1 HN2 L2 R2) as (rs & E & L & R & O).
  rewrite A2, A4, A5, A6 in *. rewrite E. exists rs.
  assert (Pt : forall c, In c l ->
    (fun w => ((w_cat w, frame_at (F_filter :: F_issue :: F_call :: F_exit :: stk) (w_level w)),
       action_of (filters st) w (frame_at (F_filter :: F_issue :: F_call :: F_exit :: stk) (w_level w))))
      (bump (dict_of 0 c)) = at_with c).
  { intros c Hc. rewrite Forall_forall in HP. destruct (HP c Hc) as [_ Hlv].
    unfold at_with, says, bump, dict_of. cbn [w_cat w_msg w_level].
    replace (frame_at (F_filter :: F_issue :: F_call :: F_exit :: stk) (wc_level c + 0 + 2))
      with (above stk (wc_level c - 2)).
    - reflexivity.
    - change (F_filter :: F_issue :: F_call :: F_exit :: stk) with ([F_filter; F_issue; F_call; F_exit] ++ stk)%list.
      rewrite frame_at_skip by (cbn; lia). f_equal. cbn. lia. }
  rewrite !map_map in *.
  assert (Dict : forall c, bump (dict_of 0 c) = dict_of 2 c)
    by (intro c; unfold bump, dict_of; cbn; rewrite Z.add_0_r; reflexivity).
  split; [|split; [|split; [|split]]].
  - f_equal. f_equal. f_equal.
    rewrite (passed_map _ _ (fun x => bump (dict_of 0 x)) _ at_with l before Pt).
    apply map_ext. exact Dict.
  - rewrite L, A3. unfold rg. rewrite app_length. destruct own; reflexivity.
  - erewrite map_ext_in in R; [exact R|]. exact Pt.
  - intro T. rewrite O by lia. rewrite A3. unfold rg. rewrite T, app_nth2, Nat.sub_diag by lia. reflexivity.
  - intros m M. rewrite O by lia. rewrite A3. unfold rg. apply app_nth1. lia.
Qed.
