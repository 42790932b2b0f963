From Coq Require Import Ascii String List Bool ZArith QArith Lia Permutation.
From Verif Require Import PyBase PyList WarnModel WarnSpec WarnProofs PopModel PopSpec PopProofs.
Import ListNotations.
Local Open Scope string_scope.

Lemma dget_write : forall A (d : list (string * A)) p c q,
  dget String.eqb (dset String.eqb d p c) q = if String.eqb q p then Some c else dget String.eqb d q.
Proof. intros. apply (dget_dset String.eqb_spec). Qed.
Lemma dset_again : forall A (d : list (string * A)) p c c',
  dset String.eqb (dset String.eqb d p c) p c' = dset String.eqb d p c'.
Proof.
  intros A d p c c'. induction d as [|[k v] d IH]; cbn [dset].
  - rewrite String.eqb_refl. reflexivity.
  - destruct (String.eqb p k) eqn:E; cbn [dset]; rewrite E; [reflexivity|]. f_equal. exact IH.
Qed.
Lemma ends_app : forall A (gs : list (list A)) g acc,
  ends acc (gs ++ [g]) = (ends acc gs ++ [acc + length (concat (gs ++ [g]))])%nat%list.
Proof.
  induction gs as [|g0 gs IH]; intros g acc; cbn [app ends concat].
  - rewrite app_nil_r. reflexivity.
  - rewrite IH, app_length, Nat.add_assoc. reflexivity.
Qed.
Lemma NoDup_map_inj : forall A B (f : A -> B) l, (forall x y, f x = f y -> x = y) -> NoDup l -> NoDup (map f l).
Proof.
  intros A B f l I. induction 1 as [|x l N _ IH]; cbn; constructor; auto.
  intro H. apply in_map_iff in H. destruct H as (y & E & H). apply I in E. congruence.
Qed.

Section Loop.
  Variables B G : Type.
  Variable b_index : B -> Z.
  Variable to_df : B -> result (list hrow).
  Variable to_oneline : B -> result orow.
  Variable gen : G -> Z -> G * result B.
  Variable evo : G -> B -> G * B * Z * list wcall * option exn.
  Variable fail : B -> exn -> B.
  Variable warned : B -> B.
  Variable fits_h : list hrow -> list hrow -> bool.
  Variable fits_o : list orow -> list orow -> bool.

  Notation world := (PopModel.world B G).
  Notation World := (PopModel.World B G).
  Notation heap := (PopModel.heap B G).
  Notation rng := (PopModel.rng B G).
  Notation man := (PopModel.man B G).
  Notation warn := (PopModel.warn B G).
  Notation alarm := (PopModel.alarm B G).
  Notation files := (PopModel.files B G).
  Notation names := (PopModel.names B G).
  Notation append_one := (PopModel.append_one B b_index).
  Notation remove_one := (PopModel.remove_one B b_index).
  Notation remove_list := (PopModel.remove_list B b_index).
  Notation breakdown := (PopModel.breakdown B b_index to_df to_oneline).
  Notation mgr_to_df := (PopModel.mgr_to_df B to_df).
  Notation mgr_to_oneline := (PopModel.mgr_to_oneline B to_oneline).
  Notation save := (PopModel.save B G to_df to_oneline fits_h fits_o).
  Notation dump := (PopModel.dump B G b_index to_df to_oneline fits_h fits_o).
  Notation one_binary := (PopModel.one_binary B G b_index to_df to_oneline gen evo fail warned fits_h fits_o).
  Notation all_binaries := (PopModel.all_binaries B G b_index to_df to_oneline gen evo fail warned fits_h fits_o).
  Notation leftover := (PopModel.leftover B G b_index to_df to_oneline fits_h fits_o).
  Notation safe_evolve := (PopModel.safe_evolve B G b_index to_df to_oneline gen evo fail warned fits_h fits_o).
  Notation combine_saved_files := (PopModel.combine_saved_files B G fits_h fits_o).
  Notation outcome := (PopSpec.outcome B fail warned).
  Notation lived := (PopSpec.lived B G gen evo fail warned).
  Notation tabulated := (PopSpec.tabulated B to_df to_oneline).
  Notation keeps_index := (PopSpec.keeps_index B G b_index evo fail warned).
  Notation file_of := (PopSpec.file_of to_df to_oneline).

  (** ** Tables of several binaries *)
  Lemma tabulated_app : forall a ha oa b hb ob, tabulated a ha oa -> tabulated b hb ob ->
    tabulated (a ++ b) (ha ++ hb) (oa ++ ob).
  Proof. induction 1; intros H2; cbn; [exact H2|]. constructor; auto. Qed.
  Lemma tabulated_lengths : forall a h o, tabulated a h o -> length h = length a /\ length o = length a.
  Proof using Type. induction 1 as [|? ? ? ? ? ? ? ? ? [I1 I2]]; cbn; split; congruence. Qed.
  Lemma tabulated_fun : forall a h o, tabulated a h o -> forall h' o', tabulated a h' o' -> h' = h /\ o' = o.
  Proof.
    induction 1; intros h' o' T; inversion T; subst; [auto|].
    match goal with H : tabulated bs ?a ?b, I : forall _ _, _ |- _ => destruct (I _ _ H) as [-> ->] end.
    split; congruence.
  Qed.
  Lemma tables_seq : forall A (f : B -> result A) (pre post : list B) l (ts : list A),
    Forall2 (fun x t => f x = Ok t) l ts ->
    tables B f (pre ++ l ++ post) (seq (length pre) (length l)) = Ok ts.
  Proof.
    intros A f pre post l ts H. revert pre. induction H as [|x t l ts E _ IH]; intro pre; [reflexivity|].
    cbn [length seq tables].
    rewrite nth_error_app2, Nat.sub_diag by lia. cbn [nth_error app]. rewrite E. cbn [rbind].
    specialize (IH (pre ++ [x])%list). rewrite app_length in IH. cbn [length] in IH.
    rewrite Nat.add_1_r in IH. rewrite <- app_assoc in IH. cbn [app] in IH. rewrite IH. reflexivity.
  Qed.
  Lemma tabulated_forall : forall a h o, tabulated a h o ->
    Forall2 (fun x t => to_df x = Ok t) a h /\ Forall2 (fun x t => to_oneline x = Ok t) a o.
  Proof. induction 1; [split; constructor|]. destruct IHtabulated. split; constructor; auto. Qed.

  (** ** What the manager holds *)
  Definition holds (o : opts) (h : list B) (m : mgr) (pend : list B) : Prop :=
    if op_breakdown o then exists hs os, tabulated pend hs os /\ m = Mgr [] [] hs os
    else exists pre, h = (pre ++ pend)%list
         /\ m = Mgr (seq (length pre) (length pend)) (map (fun x => IInt (b_index x)) pend) [] [].

  Lemma holds_empty : forall o h, holds o h empty_mgr [].
  Proof.
    intros o h. unfold holds. destruct (op_breakdown o).
    - exists [], []. split; [constructor|reflexivity].
    - exists h. rewrite app_nil_r. split; reflexivity.
  Qed.

  Lemma holds_tables : forall o h m pend hs os, holds o h m pend -> tabulated pend hs os -> pend <> [] ->
    mgr_to_df h m = Ok (Some (concat hs)) /\ mgr_to_oneline h m = Ok (Some os).
  Proof.
    intros o h m pend hs os H T NE. unfold holds in H. destruct (op_breakdown o).
    - destruct H as (hs' & os' & T' & ->). destruct (tabulated_fun _ _ _ T _ _ T') as [-> ->].
      destruct pend as [|x pend]; [congruence|]. inversion T; subst.
      split; reflexivity.
    - destruct H as (pre & -> & ->). destruct (tabulated_forall _ _ _ T) as [F1 F2].
      destruct pend as [|x pend]; [congruence|].
      pose proof (tables_seq _ to_df pre [] _ _ F1) as E1.
      pose proof (tables_seq _ to_oneline pre [] _ _ F2) as E2.
      rewrite app_nil_r in E1, E2. unfold mgr_to_df, mgr_to_oneline. cbn [m_bins].
      cbn [length seq] in *. rewrite E1, E2. split; reflexivity.
  Qed.

  Lemma totals_ok : forall hs n,
    totals_of (Totals (mass_single hs + mass_binaries hs) (mass_single hs) (mass_binaries hs) n) (first_rows [] hs) n.
  Proof.
    intros hs n. destruct (mass_split (first_rows [] hs)) as (A & C & D).
    unfold totals_of, mass_single, mass_binaries. cbn. rewrite A, C, D. repeat split; reflexivity.
  Qed.

  Lemma save_ok : forall o w p pend hs os, holds o (heap w) (man w) pend -> tabulated pend hs os -> pend <> [] ->
    fits_h [] (concat hs) = true -> fits_o [] os = true ->
    save w p = (write B G w p (FC (Some (concat hs)) (Some os)
      (Some (Totals (mass_single (concat hs) + mass_binaries (concat hs)) (mass_single (concat hs))
                    (mass_binaries (concat hs)) (Z.of_nat (length os))))), None).
  Proof.
    intros o w p pend hs os H T NE F1 F2. unfold save.
    destruct (holds_tables _ _ _ _ _ _ H T NE) as [-> ->]. rewrite F1, F2. reflexivity.
  Qed.
  Lemma file_of_tables : forall pend hs os, tabulated pend hs os ->
    file_of (FC (Some (concat hs)) (Some os)
      (Some (Totals (mass_single (concat hs) + mass_binaries (concat hs)) (mass_single (concat hs))
                    (mass_binaries (concat hs)) (Z.of_nat (length os))))) pend.
  Proof.
    intros pend hs os T. exists hs, os. eexists. exists (first_rows [] (concat hs)).
    split; [exact T|]. split; [reflexivity|]. split; [apply first_rows_ok|].
    destruct (tabulated_lengths _ _ _ T) as [_ L]. rewrite <- L. apply totals_ok.
  Qed.

  Lemma seq_aligned : forall pre pend,
    map (fun b => option_map (fun x => IInt (b_index x)) (nth_error (pre ++ pend) b)) (seq (length pre) (length pend))
    = map Some (map (fun x => IInt (b_index x)) pend).
  Proof.
    intros pre pend. revert pre. induction pend as [|x pend IH]; intro pre; [reflexivity|].
    cbn [length seq map]. rewrite nth_error_app2, Nat.sub_diag by lia. cbn [nth_error option_map]. f_equal.
    specialize (IH (pre ++ [x])%list). rewrite app_length, <- app_assoc in IH. cbn [length app] in IH.
    rewrite Nat.add_1_r in IH. exact IH.
  Qed.

  Lemma dump_ok : forall o w p pend hs os, holds o (heap w) (man w) pend -> tabulated pend hs os -> pend <> [] ->
    fits_h [] (concat hs) = true -> fits_o [] os = true ->
    exists c, dump o w p = (World (heap w) (rng w) empty_mgr (warn w) (alarm w)
                              (dset String.eqb (files w) p c) (names w ++ [p]), None)
      /\ file_of c pend.
  Proof.
    intros o w p pend hs os H T NE F1 F2. eexists. split.
    - unfold dump. rewrite (save_ok _ _ _ _ _ _ H T NE F1 F2).
      unfold holds in H. cbn [write set_files add_name man heap files]. destruct (op_breakdown o).
      + destruct H as (hs' & os' & T' & ->). reflexivity.
      + destruct H as (pre & Eh & ->). rewrite Eh. cbn [m_bins].
        rewrite (remove_everything B b_index) by apply seq_aligned. rewrite <- Eh. reflexivity.
    - apply file_of_tables. exact T.
  Qed.

  (** ** The invariant of the loop *)
  Record inv (o : opts) (n : nat) (w0 : world) (done : list B) (w : world) : Prop := Inv {
    inv_heap : heap w = (heap w0 ++ done)%list;
    inv_warn : undisturbed (warn w0) (warn w);
    inv_regs : (0 < length (regs (warn w)))%nat;
    inv_alarm : done <> [] -> alarm w = 0%Z;
    inv_emit : op_verbose o = false -> emitted (warn w) = emitted (warn w0);
    inv_groups : exists groups pend,
      (concat groups ++ pend)%list = done
      /\ names w = map (fun j => batch_name j (op_rank o)) (filter (dumps o n) (seq 0 (length done)))
      /\ ends 0 groups = map Datatypes.S (filter (dumps o n) (seq 0 (length done)))
      /\ Forall2 (fun p g => exists c, dget String.eqb (files w) p = Some c /\ file_of c g) (names w) groups
      /\ holds o (heap w) (man w) pend;
    inv_files : forall p, ~ In p (names w) -> dget String.eqb (files w) p = dget String.eqb (files w0) p
  }.

  Definition fits_empty : Prop := (forall l, fits_h [] l = true) /\ (forall l, fits_o [] l = true).
  Definition convertible (x : B) : Prop := (exists h, to_df x = Ok h) /\ (exists o, to_oneline x = Ok o).

  Lemma tabulated_exists : forall l, Forall convertible l -> exists hs os, tabulated l hs os.
  Proof.
    induction 1 as [|x l ((h & E1) & o & E2) _ (hs & os & T)]; [exists [], []; constructor|].
    exists (h :: hs), (o :: os). constructor; auto.
  Qed.

  (** The part of one iteration before the tables. *)
  Lemma one_evolved : forall o n j i w g1 x g2 x2 al calls ex,
    idle (warn w) -> (0 < length (regs (warn w)))%nat -> no_errors (filters (warn w)) ->
    gen (rng w) i = (g1, Ok x) -> evo g1 x = (g2, x2, al, calls, ex) -> Forall proper calls ->
    exists s4, undisturbed (warn w) s4 /\ (0 < length (regs s4))%nat
      /\ (op_verbose o = false -> emitted s4 = emitted (warn w))
      /\ one_binary o n j i w
         = (let m1 := append_one (heap w ++ [x])%list (man w) (length (heap w)) in
            let h2 := (heap w ++ [outcome x2 calls ex])%list in
            let w1 := World h2 g2 m1 s4 0 (files w) (names w) in
            let w2 := if op_breakdown o then set_man B G w1 (breakdown h2 m1 (length (heap w))) else w1 in
            if dumps o n j then dump o w2 (batch_name j (op_rank o)) else (w2, None)).
  Proof.
    intros o n j i w g1 x g2 x2 al calls ex I L NE Eg Ee P.
    destruct (ctx_step (warn w) calls evolve_stack I L NE P) as (c & s1 & s2 & E1 & E2 & E3 & E4 & H).
    destruct (H (op_verbose o)) as (s4 & E5 & U & L4 & Em). exists s4.
    split; [exact U|]. split; [exact L4|]. split.
    { intro V. rewrite Em, V, app_nil_r. reflexivity. }
    unfold one_binary. rewrite Eg, E1, E2, Ee, E3. unfold guarded. rewrite E4.
    replace (if op_verbose o then s2 else reset_cache s2) with (if op_verbose o then s2 else reset_cache s2) by reflexivity.
    rewrite E5. unfold PopSpec.outcome. destruct calls; reflexivity.
  Qed.

  Lemma held_after : forall o h x x3 m pend, b_index x = b_index x3 -> convertible x3 ->
    holds o h m pend ->
    holds o (h ++ [x3])
      (let m1 := append_one (h ++ [x]) m (length h) in
       if op_breakdown o then breakdown (h ++ [x3]) m1 (length h) else m1) (pend ++ [x3]).
  Proof.
    intros o h x x3 m pend E ((t1 & C1) & (t2 & C2)) H. unfold holds in *. destruct (op_breakdown o).
    - destruct H as (hs & os & T & ->). exists (hs ++ [t1])%list, (os ++ [t2])%list.
      split. { apply tabulated_app; [exact T|]. constructor; auto. constructor. }
      unfold append_one, breakdown. cbn [m_bins m_idx m_hdfs m_odfs app].
      rewrite !nth_error_app2, !Nat.sub_diag by lia. cbn [nth_error]. rewrite C1, C2. cbn [app].
      unfold remove_one. cbn [m_bins m_idx m_hdfs m_odfs app list_remove]. rewrite Nat.eqb_refl.
      rewrite nth_error_app2, Nat.sub_diag by lia. cbn [nth_error ival_eqb].
      rewrite E, Z.eqb_refl. reflexivity.
    - destruct H as (pre & -> & ->). exists pre. split; [rewrite app_assoc; reflexivity|].
      unfold append_one. cbn [m_bins m_idx m_hdfs m_odfs].
      rewrite nth_error_app2, Nat.sub_diag by lia. cbn [nth_error].
      rewrite app_length. cbn [length]. rewrite !app_length. cbn [length].
      rewrite seq_app, map_app. cbn [map seq]. rewrite E. reflexivity.
  Qed.

  Lemma filter_seq_S : forall (d : nat -> bool) k,
    filter d (seq 0 (Datatypes.S k)) = (filter d (seq 0 k) ++ if d k then [k] else [])%list.
  Proof.
    intros d k. rewrite seq_S, filter_app. cbn. reflexivity.
  Qed.

  Lemma inv_step : forall o n w0 done w i g1 x g2 x2 al calls ex,
    fits_empty -> keeps_index -> no_errors (filters (warn w0)) ->
    inv o n w0 done w ->
    Forall convertible done -> convertible (outcome x2 calls ex) ->
    gen (rng w) i = (g1, Ok x) -> evo g1 x = (g2, x2, al, calls, ex) -> Forall proper calls ->
    exists w', one_binary o n (length done) i w = (w', None) /\ rng w' = g2
      /\ inv o n w0 (done ++ [outcome x2 calls ex]) w'.
  Proof.
    intros o n w0 done w i g1 x g2 x2 al calls ex [F1 F2] (K1 & K2 & K3) NE
           [Hh Hw Hr Ha He (groups & pend & Hd & Hn & Hends & Hfiles & Hhold) Hothers] CD CX Eg Ee P.
    set (x3 := outcome x2 calls ex) in *.
    assert (EI : b_index x = b_index x3).
    { unfold x3, PopSpec.outcome. apply K1 in Ee. destruct ex, calls; rewrite ?K3, ?K2; congruence. }
    destruct Hw as (Wi & Wf & Wr).
    destruct (one_evolved o n (length done) i w g1 x g2 x2 al calls ex) as (s4 & U & L4 & Em & E); auto.
    { rewrite Wf. exact NE. }
    rewrite E. fold x3. clear E.
    pose proof (held_after o (heap w) x x3 (man w) pend EI CX Hhold) as HH.
    set (m2 := let m1 := append_one (heap w ++ [x]) (man w) (length (heap w)) in
               if op_breakdown o then breakdown (heap w ++ [x3]) m1 (length (heap w)) else m1) in HH.
    assert (Ew : (let m1 := append_one (heap w ++ [x]) (man w) (length (heap w)) in
            let h2 := (heap w ++ [x3])%list in
            let w1 := World h2 g2 m1 s4 0 (files w) (names w) in
            if op_breakdown o then set_man B G w1 (breakdown h2 m1 (length (heap w))) else w1)
          = World (heap w ++ [x3]) g2 m2 s4 0 (files w) (names w)).
    { unfold m2. cbv zeta. destruct (op_breakdown o); reflexivity. }
    cbv zeta in Ew |- *. rewrite Ew. clear Ew.
    assert (Und : undisturbed (warn w0) s4).
    { destruct U as (a & b & c). split; [exact a|]. split; congruence. }
    destruct (dumps o n (length done)) eqn:D.
    - assert (CP : Forall convertible (pend ++ [x3])).
      { subst done. apply Forall_app in CD. apply Forall_app. split; [apply CD|]. constructor; auto. }
      destruct (tabulated_exists _ CP) as (hs & os & T).
      destruct (dump_ok o (World (heap w ++ [x3]) g2 m2 s4 0 (files w) (names w))
        (batch_name (length done) (op_rank o)) (pend ++ [x3]) hs os HH T) as (c & Ed & Fc); auto.
      { intro Z. apply app_eq_nil in Z. destruct Z. discriminate. }
      rewrite Ed. eexists. split; [reflexivity|]. split; [reflexivity|].
      assert (NN : ~ In (batch_name (length done) (op_rank o)) (names w)).
      { rewrite Hn. intro I. apply in_map_iff in I. destruct I as (k & Ek & Ik).
        apply batch_name_inj in Ek. subst k. apply filter_In in Ik. destruct Ik as [Ik _].
        apply in_seq in Ik. lia. }
      constructor; cbn [PopModel.heap PopModel.warn PopModel.alarm PopModel.man PopModel.files PopModel.names].
      + rewrite Hh, app_assoc. reflexivity.
      + exact Und.
      + exact L4.
      + reflexivity.
      + intro V. rewrite Em, He; auto.
      + exists (groups ++ [pend ++ [x3]])%list, [].
        rewrite !app_length, Nat.add_1_r, filter_seq_S, D, !map_app.
        split; [|split; [|split; [|split]]].
        * rewrite concat_app. cbn. rewrite !app_nil_r, <- Hd, <- !app_assoc. reflexivity.
        * rewrite Hn. reflexivity.
        * rewrite ends_app, Hends. f_equal. cbn [map]. f_equal.
          rewrite concat_app. cbn. rewrite app_nil_r, <- Hd, !app_length. cbn. lia.
        * apply Forall2_app.
          -- clear - Hfiles NN. induction Hfiles as [|p g ps gs (c0 & E0 & F0) _ IH]; constructor.
             ++ exists c0. split; [|exact F0]. rewrite dget_write.
                destruct (String.eqb_spec p (batch_name (length done) (op_rank o))) as [->|]; [|exact E0].
                exfalso. apply NN. left. reflexivity.
             ++ apply IH. intro. apply NN. right. assumption.
          -- constructor; [|constructor]. exists c. split; [|exact Fc].
             rewrite dget_write, String.eqb_refl. reflexivity.
        * apply holds_empty.
      + intros p Np. rewrite dget_write.
        destruct (String.eqb_spec p (batch_name (length done) (op_rank o))) as [->|].
        * exfalso. apply Np. apply in_or_app. right. left. reflexivity.
        * apply Hothers. intro I. apply Np. apply in_or_app. left. exact I.
    - eexists. split; [reflexivity|]. split; [reflexivity|].
      constructor; cbn [PopModel.heap PopModel.warn PopModel.alarm PopModel.man PopModel.files PopModel.names].
      + rewrite Hh, app_assoc. reflexivity.
      + exact Und.
      + exact L4.
      + reflexivity.
      + intro V. rewrite Em, He; auto.
      + exists groups, (pend ++ [x3])%list.
        rewrite !app_length, Nat.add_1_r, filter_seq_S, D, app_nil_r.
        split; [rewrite app_assoc, Hd; reflexivity|]. split; [exact Hn|]. split; [exact Hends|].
        split; [exact Hfiles|exact HH].
      + exact Hothers.
  Qed.

  Lemma inv_loop : forall o n w0 indices done w bs g',
    fits_empty -> keeps_index -> no_errors (filters (warn w0)) ->
    inv o n w0 done w -> lived (rng w) indices bs g' -> Forall convertible (done ++ bs) ->
    exists w', all_binaries o n (length done) indices w = (w', None) /\ rng w' = g'
      /\ inv o n w0 (done ++ bs) w'.
  Proof.
    intros o n w0 indices. induction indices as [|i indices IH]; intros done w bs g' F K NE I Lv C.
    - inversion Lv; subst. exists w. rewrite app_nil_r. auto.
    - inversion Lv as [|g i' l g1 x g2 x2 al calls ex bs' g3 Eg Ee P Lv' E1 E2 E3 E4]; subst.
      assert (C' := C). apply Forall_app in C'. destruct C' as [C1 C2]. inversion C2 as [|? ? C3 C4]; subst.
      destruct (inv_step o n w0 done w i g1 x g2 x2 al calls ex) as (w1 & E & R & I1); auto.
      cbn [all_binaries]. rewrite E.
      destruct (IH (done ++ [outcome x2 calls ex])%list w1 bs' g') as (w' & E' & R' & I'); auto.
      { rewrite R. exact Lv'. }
      { rewrite <- app_assoc. exact C. }
      rewrite app_length, Nat.add_1_r in E'. rewrite <- app_assoc in I'.
      exists w'. auto.
  Qed.

  Lemma inv_start : forall o n w, man w = empty_mgr -> idle (warn w) -> (0 < length (regs (warn w)))%nat ->
    names w = [] -> inv o n w [] w.
  Proof.
    intros o n w M I L N. constructor; auto.
    - rewrite app_nil_r. reflexivity.
    - split; auto.
    - congruence.
    - exists [], []. rewrite N. cbn. repeat split; auto. rewrite M. apply holds_empty.
  Qed.
End Loop.
