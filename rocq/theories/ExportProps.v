(** C31: exporting a selection of a population. *)
From Coq Require Import String List ZArith QArith Bool Lia PeanoNat.
From Verif Require Import PyBase PyList PyStr TableModel TableSpec TableProofs ExportModel ExportProofs.
Import ListNotations.
Open Scope string_scope.
Open Scope nat_scope.
Open Scope list_scope.

(** The table afterwards is the table before followed by new rows; the k-th selected binary
    has become number [base + k], with all its rows in their order; there is nothing else. *)
Definition exported {A} (base : Z) (sel : list Z) (source : Z -> list A) (before after : table A) : Prop :=
  exists new, after = before ++ new /\
    (forall k i, nth_error sel k = Some i -> rows_of (base + Z.of_nat k)%Z new = source i) /\
    (forall r, In r new -> (base <= fst r < base + Z.of_nat (length sel))%Z).

(** The first number that the one-line table of the target leaves free. *)
Definition first_free {A} (t : table A) (base : Z) : Prop :=
  (t = [] -> base = 0%Z) /\
  (t <> [] -> In (base - 1)%Z (keys t) /\ forall i, In i (keys t) -> (i < base)%Z).

Lemma max_key_spec : forall l, l <> [] -> In (max_key l) l /\ forall i, In i l -> (i <= max_key l)%Z.
Proof.
  intros [|x l] N; [congruence|]. clear N. cbn [max_key]. revert x. induction l as [|y l IH]; intro x.
  - cbn. split; [left; reflexivity|]. intros i [<-|[]]. lia.
  - cbn [fold_left]. destruct (IH (Z.max x y)) as [I M]. split.
    + destruct I as [I|I]; [|right; right; exact I]. rewrite <- I.
      destruct (Z.max_spec x y) as [[_ ->]|[_ ->]]; [right; left | left]; reflexivity.
    + intros i [<-|[<-|J]].
      * specialize (M (Z.max x y) (or_introl eq_refl)). lia.
      * specialize (M (Z.max x y) (or_introl eq_refl)). lia.
      * apply M. right. exact J.
Qed.

Theorem export_renumbers : forall H O C (p : population H O C) sel filename target overwrite append hchunk,
  (* the call is admissible *)
  py_in ".h5" filename = true -> append && overwrite = false ->
  (target <> None -> overwrite = true \/ append = true) ->
  1 <= hchunk -> 1 <= p_chunk p -> 1 <= h_chunk (p_hist p) -> 1 <= o_chunk (p_one p) ->
  (p_met_column p = true \/ length (p_metallicities p) <= 1) ->
  (* every binary selected once and present in all tables *)
  NoDup sel ->
  (forall i, In i sel -> In i (keys (h_rows (p_hist p))) /\ In i (keys (o_rows (p_one p)))
     /\ In i (keys (h_lengths (p_hist p))) /\ (forall t, p_chan p = Some t -> In i (keys t))) ->
  (* a target that is extended has a one-line table, or no tables at all *)
  (forall s, target = Some s -> append = true -> (s_one s = None -> s_hist s = None) /\ s_one s <> Some []) ->
  let before := match target with Some s => if append then s else empty_store | None => empty_store end in
  exists p' after base,
    export_selection p sel filename target overwrite append hchunk = (p', Some after, None) /\
    first_free (contents (s_one before)) base /\
    exported base sel (fun i => rows_of i (h_rows (p_hist p))) (contents (s_hist before)) (contents (s_hist after)) /\
    exported base sel (fun i => map (fun o => (fst o, if p_met_column p then snd o else nth_error (p_metallicities p) 0))
                                    (rows_of i (o_rows (p_one p))))
             (contents (s_one before)) (contents (s_one after)) /\
    exported base sel (fun i => rows_of i (h_lengths (p_hist p))) (contents (s_len before)) (contents (s_len after)) /\
    match p_chan p with
    | Some t => exported base sel (fun i => rows_of i t) (contents (s_chan before)) (contents (s_chan after))
    | None => s_chan after = s_chan before
    end.
Proof.
  intros H O C p sel filename target overwrite append hchunk HF HAO HEX C1 C2 C3 C4 HM ND HI HT before.
  unfold export_selection. rewrite HF, HAO. cbn [negb].
  assert (match target with Some _ => negb overwrite && negb append | None => false end = false) as ->.
  { destruct target as [s|]; [|reflexivity]. destruct (HEX ltac:(discriminate)) as [-> | ->]; [reflexivity|].
    cbn. apply andb_false_r. }
  assert ((if negb overwrite && append then match target with Some s => s | None => empty_store end else empty_store) = before) as ->.
  { unfold before. destruct target as [s|]; [|destruct (negb overwrite && append); reflexivity].
    destruct append; [|rewrite andb_false_r; reflexivity]. destruct overwrite; [discriminate | reflexivity]. }
  cbv zeta.
  assert (negb (p_met_column p) && (1 <? length (p_metallicities p)) = false) as ->.
  { destruct HM as [-> | LM]; [reflexivity|]. destruct (Nat.ltb_spec 1 (length (p_metallicities p))); [lia | apply andb_false_r]. }
  set (last := last_index H O C before). set (d := reindex last sel).
  destruct (pieces_facts (p_chunk p) sel C2 ND) as [NDP PF].
  destruct (pieces_facts hchunk sel C1 ND) as [NDH PH].
  assert (concat (chunks (p_chunk p) sel) = sel) as CC by (apply concat_chunks; exact C2).
  assert (concat (chunks hchunk sel) = sel) as CH by (apply concat_chunks; exact C1).
  (* one-line *)
  set (fillrow := fun o : O * option Z => (fst o, if p_met_column p then snd o else nth_error (p_metallicities p) 0)).
  set (read_one := fun l => rbind (rows_only (oneline_get (p_one p) (KInts l))) (fun t => Ok (fill_metallicity H O C p t))).
  assert (forall q, In q (chunks (p_chunk p) sel) ->
    reads_right read_one (fun i => map fillrow (rows_of i (o_rows (p_one p)))) q) as R1.
  { intros q Q. destruct (PF q Q) as (QN & QD & QI).
    destruct (select_in_right _ _ (o_rows (p_one p)) q C4 QN) as (rows & E & IN & W).
    { intros i I. apply (HI i (QI i I)). }
    exists (fill_metallicity H O C p rows). split; [|split].
    - unfold read_one. cbn [oneline_get]. rewrite E. reflexivity.
    - intros r I. unfold fill_metallicity in I. destruct (p_met_column p); [apply IN; exact I|].
      apply in_map_iff in I as (x & <- & I). cbn [fst]. apply IN. exact I.
    - intros i I. rewrite <- (W i I). clear. unfold fill_metallicity, fillrow. destruct (p_met_column p).
      + rewrite <- (map_id (rows_of i rows)) at 1. apply map_ext. intros []. reflexivity.
      + unfold rows_of. induction rows as [|x rows IH]; [reflexivity|]. cbn [map filter fst].
        destruct (Z.eqb (fst x) i); cbn [map snd]; [f_equal; exact IH | exact IH]. }
  destruct (write_pieces_ok read_one _ d (chunks (p_chunk p) sel) (s_one before) NDP R1) as (one & raw1 & E1 & K1 & I1 & W1).
  rewrite CC in I1, W1. change (write_pieces (fun l => rbind (rows_only (oneline_get (p_one p) (KInts l))) (fun t => Ok (fill_metallicity H O C p t))) d (chunks (p_chunk p) sel) (s_one before)) with (write_pieces read_one d (chunks (p_chunk p) sel) (s_one before)).
  rewrite E1.
  (* history *)
  destruct (write_pieces_ok (fun l => rows_only (history_get (p_hist p) (KInts l))) (fun i => rows_of i (h_rows (p_hist p))) d
              (chunks hchunk sel) (s_hist before) NDH) as (hist & raw2 & E2 & K2 & I2 & W2).
  { intros q Q. destruct (PH q Q) as (QN & QD & QI). apply history_right; [exact C3 | exact QN|].
    intros i I. apply (HI i (QI i I)). }
  rewrite CH in I2, W2. rewrite E2.
  (* channels *)
  assert (exists chan, match p_chan p with
                       | Some t => write_pieces (loc t) d (chunks (p_chunk p) sel) (s_chan before)
                       | None => (s_chan before, None)
                       end = (chan, None) /\
          match p_chan p with
          | Some t => exported (last + 1) sel (fun i => rows_of i t) (contents (s_chan before)) (contents chan)
          | None => chan = s_chan before
          end) as (chan & E3 & K3).
  { destruct (p_chan p) as [t|] eqn:EC; [|exists (s_chan before); split; reflexivity].
    destruct (write_pieces_ok (loc t) (fun i => rows_of i t) d (chunks (p_chunk p) sel) (s_chan before) NDP) as (ch & raw & E & K & IN & W).
    { intros q Q. destruct (PF q Q) as (QN & QD & QI). apply loc_right; [exact QD|]. intros i I.
      apply (HI i (QI i I)). reflexivity. }
    rewrite CC in IN, W. exists ch. split; [exact E|]. eexists. split; [exact K|]. apply renumbered; assumption. }
  rewrite E3.
  (* lengths *)
  destruct (write_pieces_ok (loc (h_lengths (p_hist p))) (fun i => rows_of i (h_lengths (p_hist p))) d
              (chunks (p_chunk p) sel) (s_len before) NDP) as (len & raw4 & E4 & K4 & I4 & W4).
  { intros q Q. destruct (PF q Q) as (QN & QD & QI). apply loc_right; [exact QD|]. intros i I. apply (HI i (QI i I)). }
  rewrite CC in I4, W4. rewrite E4.
  eexists _, _, (last + 1)%Z. split; [reflexivity|]. cbn [s_hist s_one s_len s_chan].
  split; [|split; [|split; [|split]]].
  - (* numbering *)
    unfold last, last_index. unfold before.
    destruct target as [s|]; [|split; [intros _; reflexivity | intro N; exfalso; apply N; reflexivity]].
    destruct append; [|split; [intros _; reflexivity | intro N; exfalso; apply N; reflexivity]].
    destruct (HT s eq_refl eq_refl) as [HT1 HT2].
    destruct (s_one s) as [t|] eqn:ES.
    + cbn [contents]. assert (t <> []) as TN by (intro Q; apply HT2; rewrite Q; reflexivity).
      assert (keys t <> []) as KN by (destruct t; [congruence | discriminate]).
      destruct (max_key_spec (keys t) KN) as [MI MM]. split; [congruence|]. intros _.
      split; [replace (max_key (keys t) + 1 - 1)%Z with (max_key (keys t)) by lia; exact MI|].
      intros i I. specialize (MM i I). lia.
    + rewrite (HT1 eq_refl). cbn. split; [intros; lia | congruence].
  - eexists. split; [exact K2|]. apply renumbered; assumption.
  - eexists. split; [exact K1|]. apply (renumbered _ last sel raw1 (fun i => map fillrow (rows_of i (o_rows (p_one p))))); assumption.
  - eexists. split; [exact K4|]. apply renumbered; assumption.
  - exact K3.
Qed.
Print Assumptions export_renumbers.

(** ** A concrete export *)
Definition ex_pop (mass : mass_table) (mets : list Z) (met : bool) : population string string string :=
  Population (open_history [(10, "a"); (10, "b"); (11, "c"); (12, "d"); (12, "e"); (12, "f")]%Z [] None 2)
             (Oneline [(10, ("A", None)); (11, ("B", None)); (12, ("C", None))]%Z [] 2)
             (Some [(10, "x"); (11, "y"); (12, "z")]%Z) 2 mass mets met.
Definition ex_masses : mass_table := [(50%Z, Mass 90 30 60 3)].
Definition ex_export sel target overwrite append :=
  export_selection (ex_pop ex_masses [71%Z] false) sel "sel.h5" target overwrite append 1.

Example export_case :
  let first := ex_export [12; 10]%Z None false false in
  let second := ex_export [11]%Z (snd (fst first)) false true in
  snd first = None /\
  snd (fst second) = Some (Store
     (Some [(0, "d"); (0, "e"); (0, "f"); (1, "a"); (1, "b"); (2, "c")]%Z)
     (Some [(1, ("A", Some 71)); (0, ("C", Some 71)); (2, ("B", Some 71))]%Z)
     (Some [(0, "z"); (1, "x"); (2, "y")]%Z)
     (Some [(0%Z, 3); (1%Z, 2); (2%Z, 1)])
     (Some [(50%Z, Mass 180 60 120 3)])) /\ snd second = None.
Proof. vm_compute. repeat split; reflexivity. Qed.

(** Admissibility is not vacuous. *)
Example export_hyps : NoDup [12; 10]%Z /\
  (forall i, In i [12; 10]%Z -> In i (keys (h_rows (p_hist (ex_pop ex_masses [71%Z] false))))
     /\ In i (keys (o_rows (p_one (ex_pop ex_masses [71%Z] false))))
     /\ In i (keys (h_lengths (p_hist (ex_pop ex_masses [71%Z] false))))
     /\ (forall t, p_chan (ex_pop ex_masses [71%Z] false) = Some t -> In i (keys t))).
Proof.
  split; [repeat constructor; cbn; intuition discriminate|].
  intros i [<-|[<-|[]]]; (split; [vm_compute; tauto|]; split; [vm_compute; tauto|]; split; [vm_compute; tauto|]);
    intros t E; injection E as <-; vm_compute; tauto.
Qed.

(** Refused calls leave the target as it was. *)
Theorem export_refused : forall H O C (p : population H O C) sel filename target overwrite append hchunk,
  py_in ".h5" filename = false \/ append && overwrite = true \/
  (target <> None /\ overwrite = false /\ append = false) ->
  exists e, export_selection p sel filename target overwrite append hchunk = (p, target, Some e) /\
    (e = ValueError \/ e = FileExistsError).
Proof.
  intros H O C p sel filename target overwrite append hchunk HC. unfold export_selection.
  destruct (py_in ".h5" filename); [|eexists; split; [reflexivity | left; reflexivity]].
  destruct (append && overwrite); [eexists; split; [reflexivity | left; reflexivity]|].
  destruct HC as [HC|[HC|(HT & -> & ->)]]; try discriminate.
  destruct target; [|congruence]. eexists. split; [reflexivity | right; reflexivity].
Qed.
Print Assumptions export_refused.

(** ** Simulated mass *)
(** Written into a new file, every metallicity keeps the simulated masses of the source.
    In an existing file the masses of the source are added to those of the target. *)
Theorem export_mass : forall H O C (p : population H O C) sel filename target overwrite append hchunk p' after,
  export_selection p sel filename target overwrite append hchunk = (p', Some after, None) ->
  let before := match target with Some s => if append then s else empty_store | None => empty_store end in
  forall z f, In f [m_sim; m_single; m_bin] ->
    (total f z (contents (s_mass after)) == total f z (contents (s_mass before)) + total f z (p_mass p))%Q.
Proof.
  intros H O C p sel filename target overwrite append hchunk p' after E before z f F.
  unfold export_selection in E.
  destruct (negb (py_in ".h5" filename)); [congruence|].
  destruct (append && overwrite) eqn:AO; [congruence|].
  destruct (match target with Some _ => negb overwrite && negb append | None => false end) eqn:EX; [congruence|].
  assert ((if negb overwrite && append then match target with Some s => s | None => empty_store end else empty_store) = before) as B.
  { unfold before. destruct target as [s|]; [|destruct (negb overwrite && append); reflexivity].
    destruct append; [|rewrite andb_false_r; reflexivity]. destruct overwrite; [discriminate | reflexivity]. }
  rewrite B in E. cbv zeta in E.
  destruct (negb (p_met_column p) && (1 <? length (p_metallicities p))); [congruence|].
  repeat match type of E with
  | (let '(_, _) := ?x in _) = _ => destruct x as [? [?|]]; [congruence|]
  end.
  assert (s_mass after = Some (match s_mass before with
                               | Some old => group_sum (old ++ set_systems (length sel) (p_mass p))
                               | None => set_systems (length sel) (p_mass p)
                               end)) as ->.
  { match type of E with (_, Some ?s, _) = _ => assert (after = s) as -> by congruence end. reflexivity. }
  clear E. cbn [contents].
  assert ((forall a b, (f (mass_add a b) == f a + f b)%Q) /\ (f no_mass == 0)%Q /\
          (forall m n, f (Mass (m_sim m) (m_single m) (m_bin m) n) = f m)) as (AD & Z0 & SAME).
  { cbn in F. repeat (destruct F as [<-|F]; [split; [intros; reflexivity | split; [reflexivity | intros [] ?; reflexivity]]|]).
    destruct F. }
  assert (total f z (set_systems (length sel) (p_mass p)) == total f z (p_mass p))%Q as SS.
  { unfold set_systems, total. induction (p_mass p) as [|r l IH]; [reflexivity|]. cbn [map fold_right fst snd].
    destruct (Z.eqb (fst r) z); [|exact IH]. rewrite SAME, IH. reflexivity. }
  destruct (s_mass before) as [old|]; cbn [contents].
  - rewrite group_sum_total by assumption. rewrite total_app, SS. reflexivity.
  - rewrite SS. unfold total. cbn [fold_right]. ring.
Qed.
Print Assumptions export_mass.

(** So exporting a population in two parts into one file doubles its simulated mass. *)
Theorem export_halves_mass_refuted : exists s,
  snd (fst (ex_export [11]%Z (snd (fst (ex_export [12; 10]%Z None false false))) false true)) = Some s /\
  (total m_sim 50 (contents (s_mass s)) == 2 * total m_sim 50 ex_masses)%Q /\ ~ (total m_sim 50 ex_masses == 0)%Q.
Proof. eexists. split; [vm_compute; reflexivity|]. split; [reflexivity | vm_compute; discriminate]. Qed.

(** The number of systems is set to the size of the whole selection in every metallicity, in
    the file and in the population object that was exported from. *)
Theorem export_systems_refuted :
  let p := ex_pop [(50, Mass 90 30 60 2); (60, Mass 40 0 40 1)]%Z [71; 85]%Z true in
  exists p' s, export_selection p [10; 12]%Z "sel.h5" None false false 1 = (p', Some s, None) /\
    s_mass s = Some [(50, Mass 90 30 60 2); (60, Mass 40 0 40 2)]%Z /\
    p_mass p' = [(50, Mass 90 30 60 2); (60, Mass 40 0 40 2)]%Z /\ p_mass p' <> p_mass p.
Proof. cbv zeta. eexists _, _. split; [vm_compute; reflexivity|]. repeat split; try reflexivity. discriminate. Qed.

(** A missing metallicity column is filled with the absolute metallicity (71 in the example),
    although the table of simulated masses is labelled in solar units (50): no exported
    system matches a metallicity of the file. *)
Theorem export_metallicity_refuted : exists s,
  snd (fst (ex_export [12; 10]%Z None false false)) = Some s /\
  Forall (fun r => snd (snd r) = Some 71%Z) (contents (s_one s)) /\ keys (contents (s_mass s)) = [50%Z].
Proof. eexists. split; [vm_compute; reflexivity|]. split; [repeat constructor | reflexivity]. Qed.

(** A selected index that does not exist: the rows of the others are written before the
    exception, so a partial file without masses is left behind. *)
Theorem export_missing_partial_file_refuted : exists s,
  ex_export [12; 99]%Z None false false = (ex_pop ex_masses [71%Z] false, Some s, Some ValueError) /\
  s_one s <> None /\ s_mass s = None.
Proof.
  eexists. split; [vm_compute; reflexivity | split; [discriminate | reflexivity]].
Qed.

(** If the export succeeds, every selected binary is in the tables of channels and lengths. *)
Lemma pieces_loc : forall A (t : table A) d pieces out res, write_pieces (loc t) d pieces out = (res, None) ->
  forall i, In i (concat pieces) -> In i (keys t).
Proof.
  intros A t d. induction pieces as [|p ps IH]; intros out res H i I; [destruct I|]. cbn [write_pieces] in H.
  unfold loc in H at 1. destruct (forallb (fun j => zin j (keys t)) p) eqn:F; [|discriminate].
  cbn [concat] in I. apply in_app_iff in I. destruct I as [I|I]; [|apply (IH _ _ H i I)].
  rewrite forallb_forall in F. specialize (F i I). unfold zin in F. destruct (inb_spec Z.eqb_spec i (keys t)); [assumption | discriminate].
Qed.
Theorem export_complete : forall H O C (p : population H O C) sel filename target ow ap hchunk p' s',
  1 <= p_chunk p -> export_selection p sel filename target ow ap hchunk = (p', s', None) ->
  (forall t, p_chan p = Some t -> forall i, In i sel -> In i (keys t)) /\
  (forall i, In i sel -> In i (keys (h_lengths (p_hist p)))).
Proof.
  intros H O C p sel filename target ow ap hchunk p' s' C1 E. unfold export_selection in E.
  destruct (negb (py_in ".h5" filename)); [discriminate|]. destruct (ap && ow); [discriminate|].
  match type of E with (if ?b then _ else _) = _ => destruct b; [discriminate|] end.
  match type of E with (if ?b then _ else _) = _ => destruct b; [discriminate|] end. cbv zeta in E.
  match type of E with (let '(_, _) := ?w in _) = _ => destruct w as [one [e|]]; [discriminate|] end.
  match type of E with (let '(_, _) := ?w in _) = _ => destruct w as [hist [e|]]; [discriminate|] end.
  match type of E with (let '(_, _) := ?w in _) = _ => destruct w as [chan [e|]] eqn:WC; [discriminate|] end.
  match type of E with (let '(_, _) := ?w in _) = _ => destruct w as [len [e|]] eqn:WL; [discriminate|] end.
  split.
  - intros t T i I. rewrite T in WC. apply (pieces_loc _ _ _ _ _ _ WC). rewrite concat_chunks by exact C1. exact I.
  - intros i I. apply (pieces_loc _ _ _ _ _ _ WL). rewrite concat_chunks by exact C1. exact I.
Qed.
Print Assumptions export_complete.
