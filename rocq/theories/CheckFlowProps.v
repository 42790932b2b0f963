(** C162: what checking a run does. *)
From Coq Require Import String Ascii List Bool ZArith Lia Sorted Permutation.
From Verif Require Import PyBase PyStr PySplit PyStrip PyReplace PopModel PopProofs SimPropModel RescueModel RescueSpec RescueProofs RescueParse RescueProps CheckProps.
Import ListNotations.
Open Scope list_scope.
Open Scope string_scope.

(** A population file is there; it has the number of binaries. *)
Definition there (w : folder) (z : Z) : Prop := exists met r, zstring (VNum z) = Ok met /\ population w (met ++ "_Zsun_population.h5") = Some r.
Definition full (w : folder) (n : Z) (z : Z) : Prop := exists met, zstring (VNum z) = Ok met /\ population w (met ++ "_Zsun_population.h5") = Some (Ok n).
Definition known_z (z : Z) : Prop := exists met, zstring (VNum z) = Ok met.
Definition thereb (w : folder) (z : Z) : bool :=
  match zstring (VNum z) with
  | Ok met => match population w (met ++ "_Zsun_population.h5") with Some _ => true | None => false end
  | Raise _ => false
  end.
Definition fullb (w : folder) (n z : Z) : bool :=
  match zstring (VNum z) with
  | Ok met => match population w (met ++ "_Zsun_population.h5") with Some (Ok k) => Z.eqb k n | _ => false end
  | Raise _ => false
  end.
Lemma there_iff : forall w z, thereb w z = true <-> there w z.
Proof.
  intros w z. unfold thereb, there. split.
  - destruct (zstring (VNum z)) as [met|]; [|discriminate]. destruct (population w _) as [r|] eqn:E; [|discriminate]. intros _. eauto.
  - intros (met & r & -> & ->). reflexivity.
Qed.
Lemma full_iff : forall w n z, fullb w n z = true <-> full w n z.
Proof.
  intros w n z. unfold fullb, full. split.
  - destruct (zstring (VNum z)) as [met|]; [|discriminate]. destruct (population w _) as [[k|]|] eqn:E; try discriminate.
    intro Q. apply Z.eqb_eq in Q. subst k. eauto.
  - intros (met & -> & ->). apply Z.eqb_refl.
Qed.
Lemma dset_new : forall (d : list (Z * bool)) z b, ~ In z (map fst d) -> dset Z.eqb d z b = (d ++ [(z, b)])%list.
Proof.
  induction d as [|[k v] d IH]; intros z b N; [reflexivity|]. cbn in *. destruct (Z.eqb_spec z k); [exfalso; apply N; left; congruence|].
  rewrite IH by tauto. reflexivity.
Qed.
Lemma files_all : forall w l all d, (forall z, In z l -> known_z z) -> NoDup (map fst d ++ l) ->
  population_files w l all d = Ok (all && forallb (thereb w) l, (d ++ map (fun z => (z, thereb w z)) l)%list).
Proof.
  intros w l. induction l as [|z l IH]; intros all d K N.
  - cbn. rewrite andb_true_r, app_nil_r. reflexivity.
  - destruct (K z (or_introl eq_refl)) as (met & M). cbn [population_files]. rewrite M. cbn [rbind].
    assert (T : match population w (met ++ "_Zsun_population.h5") with Some _ => true | None => false end = thereb w z)
      by (unfold thereb; rewrite M; reflexivity).
    rewrite T. pose proof (NoDup_remove_2 _ _ _ N) as Z0. rewrite in_app_iff in Z0.
    rewrite dset_new by tauto. rewrite IH.
    + cbn [forallb map]. rewrite <- app_assoc, andb_assoc. reflexivity.
    + intros y Y. apply K. right. exact Y.
    + rewrite map_app, <- app_assoc. exact N.
Qed.
Lemma counts_all : forall w l n all, (forall z, In z l -> known_z z) -> check_binary_counts w l n all = Ok (all && forallb (fullb w n) l).
Proof.
  intros w l n. induction l as [|z l IH]; intros all K; [cbn; rewrite andb_true_r; reflexivity|].
  destruct (K z (or_introl eq_refl)) as (met & M). cbn [check_binary_counts]. rewrite M. cbn [rbind].
  assert (T : match population w (met ++ "_Zsun_population.h5") with Some (Ok k) => Z.eqb k n | _ => false end = fullb w n z)
    by (unfold fullb; rewrite M; reflexivity).
  rewrite T, IH by (intros y Y; apply K; right; exact Y). cbn [forallb]. rewrite andb_assoc. reflexivity.
Qed.
Lemma status_all : forall w l n, (forall z, In z l -> known_z z) -> NoDup l ->
  check_run_status w l n = Ok (forallb (thereb w) l, forallb (thereb w) l && forallb (fullb w n) l, map (fun z => (z, thereb w z)) l).
Proof.
  intros w l n K N. unfold check_run_status, check_population_files. rewrite files_all by assumption. cbn [rbind fst snd].
  destruct (forallb (thereb w) l); cbn [rbind andb]; [rewrite counts_all by exact K|]; reflexivity.
Qed.
(** The metallicities without a population file *)
Definition lost (w : folder) (l : list Z) : list Z := filter (fun z => negb (thereb w z)) l.
Lemma lost_is : forall w l, map fst (filter (fun e : Z * bool => negb (snd e)) (map (fun z => (z, thereb w z)) l)) = lost w l.
Proof. intros w l. induction l as [|z l IH]; [reflexivity|]. cbn. destruct (thereb w z); cbn; rewrite IH; reflexivity. Qed.
Definition temp_of (r : run) : string := match r_temp r with Some t => t | None => "batches" end.
Section Flow.
  Variables (w : folder) (r : run) (args : settings).
  Hypothesis K : forall z, In z (r_metallicities r) -> known_z z.
  Hypothesis N : NoDup (r_metallicities r).
  Let L := lost w (r_metallicities r).
  Lemma flow : forall st, ~ (forall z, In z (r_metallicities r) -> full w (r_binaries r) z) ->
    check_popsyn_function w r args st =
    bind (pmap (fun z => check_batch w z (temp_of r)) L) (fun status =>
      bind (handle_batches_complete L status) (fun handled =>
      if handled then ret 2%Z
      else if existsb (fun b => String.eqb (b_status b) "folder_missing") status then ret 1%Z
      else bind get_user_confirmation (fun yes =>
        if yes then
          bind (pmap (create_batch_rescue_script w args) status) (fun scripts =>
          bind (emit (WroteInRun "resubmit_slurm.sh" (create_bash_submit_rescue_script scripts))) (fun _ =>
          bind get_user_confirmation (fun now =>
          if now then bind (emit (Shell "sh resubmit_slurm.sh")) (fun _ => ret 0%Z) else ret 2%Z)))
        else ret 2%Z))) st.
  Proof using K N.
    intros st Q. unfold check_popsyn_function. unfold bind at 1, lift at 1. rewrite status_all by assumption.
    assert (F : forallb (thereb w) (r_metallicities r) && (forallb (thereb w) (r_metallicities r) && forallb (fullb w (r_binaries r)) (r_metallicities r)) = false).
    { destruct (forallb (fullb w (r_binaries r)) (r_metallicities r)) eqn:E; [|destruct (forallb (thereb w) (r_metallicities r)); reflexivity].
      exfalso. apply Q. intros z Z. rewrite forallb_forall in E. apply full_iff, E, Z. }
    rewrite F, lost_is. reflexivity.
  Qed.
  (** All files there with all binaries: nothing to do. *)
  Theorem C162_passed : forall st, (forall z, In z (r_metallicities r) -> full w (r_binaries r) z) -> check_popsyn_function w r args st = (Ok 0%Z, st).
  Proof using K N.
    intros st Q. unfold check_popsyn_function, bind, lift. rewrite status_all by assumption.
    assert (A : forallb (thereb w) (r_metallicities r) = true).
    { apply forallb_forall. intros z Z. apply there_iff. destruct (Q z Z) as (met & M & P). exists met, (Ok (r_binaries r)). auto. }
    assert (B : forallb (fullb w (r_binaries r)) (r_metallicities r) = true).
    { apply forallb_forall. intros z Z. apply full_iff, Q, Z. }
    rewrite A, B. reflexivity.
  Qed.
  Definition agrees (x : string) : bool := String.eqb (lower (strip x)) "yes" || String.eqb (lower (strip x)) "y".
  Lemma confirm : forall e x rest, get_user_confirmation (State e (x :: rest)) = (Ok (agrees x), State e rest).
  Proof. reflexivity. Qed.
  (** Files with other numbers of binaries: whatever the answer, nothing is done about them. *)
  Theorem C162_counts : forall e x rest, (forall z, In z (r_metallicities r) -> there w z) ->
    ~ (forall z, In z (r_metallicities r) -> full w (r_binaries r) z) ->
    check_popsyn_function w r args (State e (x :: rest)) = (Ok 2%Z, State e rest).
  Proof using K N.
    intros e x rest T Q. rewrite flow by exact Q.
    assert (E : L = []).
    { unfold L, lost. clear -T. induction (r_metallicities r) as [|z l IH]; [reflexivity|]. cbn.
      rewrite (proj2 (there_iff w z) (T z (or_introl eq_refl))). cbn. apply IH. intros; apply T; right; assumption. }
    rewrite E. unfold bind, handle_batches_complete. cbn [pmap ret existsb]. unfold bind. rewrite confirm. destruct (agrees x); reflexivity.
  Qed.
  Lemma pmap_pure : forall A B (f : A -> prog B) g l st, (forall x, In x l -> f x st = (Ok (g x), st)) -> pmap f l st = (Ok (map g l), st).
  Proof.
    intros A B f g l st. induction l as [|x l IH]; intro H; [reflexivity|]. cbn [pmap]. unfold bind. rewrite (H x (or_introl eq_refl)).
    rewrite IH by (intros; apply H; right; assumption). reflexivity.
  Qed.
  Lemma pmap_emit : forall A B (f : A -> prog B) g h l e i, (forall x e, In x l -> f x (State e i) = (Ok (g x), State (e ++ [h x])%list i)) ->
    pmap f l (State e i) = (Ok (map g l), State (e ++ map h l)%list i).
  Proof.
    intros A B f g h l e i. revert e. induction l as [|x l IH]; intros e H; [cbn; rewrite app_nil_r; reflexivity|].
    cbn [pmap]. unfold bind. rewrite (H x e (or_introl eq_refl)). rewrite IH by (intros; apply H; right; assumption).
    cbn [map]. rewrite <- app_assoc. reflexivity.
  Qed.
  (** All batches there: the merges of exactly the lost metallicities are submitted, if wished. *)
  Theorem C162_merge : forall e x rest status mets, Forall2 (fun z met => zstring (VNum z) = Ok met) L mets -> L <> [] ->
    (forall z i e, In z L -> check_batch w z (temp_of r) (State e i) = (Ok (status z), State e i)) ->
    (forall z, In z L -> b_status (status z) = "complete") ->
    check_popsyn_function w r args (State e (x :: rest)) =
      (Ok 2%Z, State (e ++ if agrees x then map (fun met => Submitted (merge_script met)) mets else [])%list rest).
  Proof using K N.
    intros e x rest status mets F NE H C. rewrite flow.
    2: { intro Q. apply NE. unfold L, lost. clear -Q. induction (r_metallicities r) as [|z l IH]; [reflexivity|]. cbn.
         destruct (Q z (or_introl eq_refl)) as (met & M & P). rewrite (proj2 (there_iff w z)) by (exists met; eauto). cbn. apply IH.
         intros; apply Q; right; assumption. }
    unfold bind at 1. rewrite (pmap_pure _ _ _ status) by (intros; apply H; assumption). unfold bind at 1, handle_batches_complete.
    assert (E : existsb (fun b => negb (String.eqb (b_status b) "complete")) (map status L) = false).
    { destruct (existsb _ _) eqn:X; [|reflexivity]. apply existsb_exists in X. destruct X as (b & B & X). apply in_map_iff in B.
      destruct B as (z & <- & Z). rewrite (C z Z) in X. discriminate. }
    rewrite E. unfold bind at 1. rewrite confirm. destruct (agrees x); [|rewrite app_nil_r; reflexivity].
    assert (G : forall e, pmap (fun z => bind (lift (zstring (VNum z))) (fun met => emit (Submitted (met ++ "_Zsun_merge_popsyn.slurm")))) L (State e rest) =
      (Ok (map (fun _ => tt) L), State (e ++ map (fun met => Submitted (merge_script met)) mets)%list rest)).
    { clear - F. induction F as [|z met l ms M F IH]; intro e; [cbn; rewrite app_nil_r; reflexivity|].
      cbn [pmap map]. unfold bind, lift, emit. rewrite M. cbn [effects inputs]. unfold bind, lift, emit in IH. rewrite IH. rewrite <- app_assoc. reflexivity. }
    unfold bind at 1. rewrite G. reflexivity.
  Qed.
  (** A lost metallicity without its folder of batches: nothing is done. *)
  Theorem C162_folder : forall e i status, L <> [] ->
    (forall z e, In z L -> check_batch w z (temp_of r) (State e i) = (Ok (status z), State e i)) ->
    (exists z, In z L /\ b_status (status z) = "folder_missing") ->
    check_popsyn_function w r args (State e i) = (Ok 1%Z, State e i).
  Proof using K N.
    intros e i status NE H (z & Z & B). rewrite flow.
    2: { intro Q. apply NE. unfold L, lost. clear -Q. induction (r_metallicities r) as [|z l IH]; [reflexivity|]. cbn.
         destruct (Q z (or_introl eq_refl)) as (met & M & P). rewrite (proj2 (there_iff w z)) by (exists met; eauto). cbn. apply IH.
         intros; apply Q; right; assumption. }
    unfold bind at 1. rewrite (pmap_pure _ _ _ status) by (intros; apply H; assumption). unfold bind at 1, handle_batches_complete.
    assert (E : existsb (fun b => negb (String.eqb (b_status b) "complete")) (map status L) = true).
    { apply existsb_exists. exists (status z). split; [apply in_map, Z|]. rewrite B. reflexivity. }
    rewrite E. cbn [ret].
    assert (E' : existsb (fun b => String.eqb (b_status b) "folder_missing") (map status L) = true).
    { apply existsb_exists. exists (status z). split; [apply in_map, Z|]. rewrite B. reflexivity. }
    rewrite E'. reflexivity.
  Qed.
  (** The script of the array of a metallicity as it was set up. *)
  Definition arranged (z : Z) (met : string) (n : nat) (text : string) : Prop :=
    exists s path data, zstring (VNum z) = Ok met /\ 1 <= n /\ clean_settings s /\ s_time s <> None /\ s_mem s <> None /\ clean path /\ clean data /\
      create_slurm_array z (Z.of_nat n) s path data = Ok (met ++ "_Zsun_slurm_array.slurm", text) /\
      text_of w (met ++ "_Zsun_slurm_array.slurm") = Some text.
  (** All lost metallicities incomplete: one rescue for each with exactly its missing jobs, and a script which submits
      them with their merges. *)
  Theorem C162_rescue : forall e x y rest (met : Z -> string) (n : Z -> nat) (text : Z -> string) (M : Z -> list nat) (found : Z -> Z) expected,
    one_line args -> (forall k, s_limit args = Some k -> (0 <= k)%Z) -> L <> [] ->
    (forall z, In z L -> arranged z (met z) (n z) (text z) /\ NoDup (M z) /\ M z <> [] /\ forall i, In i (M z) -> i < n z) ->
    (forall z e i, In z L -> check_batch w z (temp_of r) (State e i) = (Ok (Batch "incomplete" (expected z) (found z) z (Some (map Z.of_nat (M z)))), State e i)) ->
    agrees x = true ->
    exists (rescue : Z -> string) submit,
      check_popsyn_function w r args (State e (x :: y :: rest)) =
        (Ok (if agrees y then 0 else 2)%Z,
         State (e ++ map (fun z => WroteHere (rescue_script (met z)) (rescue z)) L ++ [WroteInRun "resubmit_slurm.sh" submit]
                  ++ if agrees y then [Shell "sh resubmit_slurm.sh"] else [])%list rest) /\
      (forall z, In z L -> exists J lim, jobs (rescue z) = Some (J, lim) /\ Permutation J (M z) /\ forall i, In i (M z) -> place (rescue z) i = place (text z) i) /\
      chained rescue_script (map met L) (submitted submit).
  Proof using K N.
    intros e x y rest met n text M found expected OA KA NE A C X.
    assert (R : forall z, In z L -> exists rescue, 
      (forall e i, create_batch_rescue_script w args (Batch "incomplete" (expected z) (found z) z (Some (map Z.of_nat (M z)))) (State e i) =
        (Ok (rescue_script (met z)), State (e ++ [WroteHere (rescue_script (met z)) rescue])%list i)) /\
      exists J lim, jobs rescue = Some (J, lim) /\ Permutation J (M z) /\ forall i, In i (M z) -> place rescue i = place (text z) i).
    { intros z Z. destruct (A z Z) as ((s & path & data & H & N1 & CS & T & ME & P & D & CT & W) & ND & NM & B).
      destruct (C160_rescue w args z (met z) (n z) s path data (text z) (M z)
        (Batch "incomplete" (expected z) (found z) z (Some (map Z.of_nat (M z)))) (State [] []) H N1 CS T ME P D OA KA CT W ND NM B eq_refl eq_refl)
        as (rescue & E & (J & E1 & E2 & E3) & E4 & _).
      exists rescue. split.
      - intros e0 i0. destruct (C160_rescue w args z (met z) (n z) s path data (text z) (M z)
          (Batch "incomplete" (expected z) (found z) z (Some (map Z.of_nat (M z)))) (State e0 i0) H N1 CS T ME P D OA KA CT W ND NM B eq_refl eq_refl)
          as (rescue' & E' & _).
        rewrite E'. cbn [effects inputs]. do 3 f_equal. f_equal.
        unfold create_batch_rescue_script, bind, lift in E, E'. cbn [b_metallicity b_missing] in E, E'. rewrite H in E, E'.
        destruct (map Z.of_nat (M z)) as [|i l]; [destruct (M z); [congruence|]; cbn in *; discriminate E|]. rewrite W in E, E'.
        destruct (parse_script (text z)) as [p|]; [|discriminate E].
        destruct (create_slurm_rescue z (i :: l) (p_length p) (override args (p_settings p)) (p_path p) (p_data p)) as [[nm tx]|]; [|discriminate E].
        unfold emit, ret in E, E'. cbn [fst snd effects inputs app] in E, E'.
        assert (W1 : tx = rescue) by congruence. assert (W2 : [WroteHere nm tx] = [WroteHere (met z ++ "_Zsun_rescue.slurm") rescue']).
        { apply (app_inv_head e0). congruence. }
        unfold rescue_script. congruence.
      - exists J, (option_map Z.to_nat (either (s_limit args) (s_limit s))). split; [exact E1|]. split; [exact E3|]. intros i I. apply E4, I. }
    assert (CH : exists rescue : Z -> string, forall z, In z L -> 
      (forall e i, create_batch_rescue_script w args (Batch "incomplete" (expected z) (found z) z (Some (map Z.of_nat (M z)))) (State e i) =
        (Ok (rescue_script (met z)), State (e ++ [WroteHere (rescue_script (met z)) (rescue z)])%list i)) /\
      exists J lim, jobs (rescue z) = Some (J, lim) /\ Permutation J (M z) /\ forall i, In i (M z) -> place (rescue z) i = place (text z) i).
    { clear - R. induction L as [|z l IH]; [exists (fun _ => ""); intros z []|].
      destruct (R z (or_introl eq_refl)) as (t & T). destruct IH as (f & F); [intros; apply R; right; assumption|].
      exists (fun y => if Z.eq_dec y z then t else f y). intros y [-> |Y].
      - destruct (Z.eq_dec y y); [exact T|congruence].
      - destruct (Z.eq_dec y z) as [-> |]; [exact T|apply F, Y]. }
    destruct CH as (rescue & CH). exists rescue, (create_bash_submit_rescue_script (map rescue_script (map met L))).
    split; [|split].
    - rewrite flow.
      2: { intro Q. apply NE. unfold L, lost. clear -Q. induction (r_metallicities r) as [|z l IH]; [reflexivity|]. cbn.
           destruct (Q z (or_introl eq_refl)) as (m & Mt & P). rewrite (proj2 (there_iff w z)) by (exists m; eauto). cbn. apply IH.
           intros; apply Q; right; assumption. }
      set (status := fun z => Batch "incomplete" (expected z) (found z) z (Some (map Z.of_nat (M z)))).
      unfold bind at 1. rewrite (pmap_pure _ _ _ status) by (intros; apply C; assumption). unfold bind at 1, handle_batches_complete.
      destruct L as [|z0 l0] eqn:EL; [congruence|].
      replace (existsb (fun b => negb (String.eqb (b_status b) "complete")) (map status (z0 :: l0))) with true by reflexivity.
      cbn [ret].
      assert (E' : existsb (fun b => String.eqb (b_status b) "folder_missing") (map status (z0 :: l0)) = false).
      { destruct (existsb _ _) eqn:Q; [|reflexivity]. apply existsb_exists in Q. destruct Q as (b & B & Q). apply in_map_iff in B.
        destruct B as (z & <- & Z). discriminate Q. }
      rewrite E'. unfold bind at 1. rewrite confirm, X. unfold bind at 1.
      assert (PM : pmap (create_batch_rescue_script w args) (map status (z0 :: l0)) (State e (y :: rest)) =
        (Ok (map rescue_script (map met (z0 :: l0))), State (e ++ map (fun z => WroteHere (rescue_script (met z)) (rescue z)) (z0 :: l0))%list (y :: rest))).
      { revert CH. generalize (z0 :: l0). intros l. clear. revert e. induction l as [|z l IH]; intros e CH; [cbn; rewrite app_nil_r; reflexivity|].
        cbn [map pmap]. unfold bind. destruct (CH z (or_introl eq_refl)) as [Q _]. fold (status z). unfold status at 1. rewrite Q.
        rewrite IH by (intros; apply CH; right; assumption). rewrite <- app_assoc. reflexivity. }
      rewrite PM. unfold bind, emit. cbn [effects inputs]. rewrite confirm. destruct (agrees y); cbn [ret effects inputs].
      + rewrite <- !app_assoc. reflexivity.
      + rewrite app_nil_r. rewrite <- !app_assoc. reflexivity.
    - intros z Z. apply CH, Z.
    - apply C160_resubmit. intros m I. apply in_map_iff in I. destruct I as (z & <- & Z).
      destruct (A z Z) as ((s & path & data & H & _) & _). exists z. exact H.
  Qed.
End Flow.
Print Assumptions C162_passed.
Print Assumptions C162_counts.
Print Assumptions C162_merge.
Print Assumptions C162_folder.
Print Assumptions C162_rescue.

(** Two lost metallicities, one with all batches and one without: no rescue is possible. *)
Definition array_text_of (z n : Z) : string := match create_slurm_array z n usual "/opt/POSYDON" "/data/v2" with Ok (_, t) => t | Raise _ => "" end.
Definition two (first second : list string) : folder :=
  Folder (fun _ => None)
    (fun f => if String.eqb f "1e+00_Zsun_slurm_array.slurm" then Some (array_text_of 10000 4)
              else if String.eqb f "1e-01_Zsun_slurm_array.slurm" then Some (array_text_of 1000 4) else None)
    (fun d => if String.eqb d "1e+00_Zsun_batches" then Some first else if String.eqb d "1e-01_Zsun_batches" then Some second else None).
Definition both : run := Run [10000; 1000]%Z 100 None.
Theorem C162_mixed_refuted :
  check_popsyn_function (two (map batch_file [0; 1; 2; 3]) (map batch_file [0; 2; 3])) both no_args (State [] ["yes"; "yes"]) = (Raise ValueError, State [] ["yes"]).
Proof. vm_compute. reflexivity. Qed.
(** A population with too few binaries: the check asks to submit merges, submits none, and never asks for a rescue. *)
Theorem C162_short_refuted :
  let w := Folder (fun f => if String.eqb f "1e+00_Zsun_population.h5" then Some (Ok 60%Z) else None) (fun _ => None) (fun _ => None) in
  check_popsyn_function w (Run [10000]%Z 100 None) no_args (State [] ["yes"; "yes"]) = (Ok 2%Z, State [] ["yes"]).
Proof. vm_compute. reflexivity. Qed.
Example C162_case : exists a b,
  (exists t, check_popsyn_function (two (map batch_file [0; 3]) (map batch_file [0; 2; 3])) both no_args (State [] [" YES "; "n"]) =
    (Ok 2%Z, State [WroteHere "1e+00_Zsun_rescue.slurm" a; WroteHere "1e-01_Zsun_rescue.slurm" b; WroteInRun "resubmit_slurm.sh" t] []) /\
    submitted t = [("1e+00_Zsun_rescue.slurm", None); ("1e+00_Zsun_merge_popsyn.slurm", Some (Some 0));
                   ("1e-01_Zsun_rescue.slurm", None); ("1e-01_Zsun_merge_popsyn.slurm", Some (Some 2))]) /\
  jobs a = Some ([1; 2], None) /\ jobs b = Some ([1], None) /\ place b 1 = Some (1, 4) /\
  check_popsyn_function (two (map batch_file [0; 1; 2; 3]) (map batch_file [0; 1; 2; 3])) both no_args (State [] ["y"]) =
    (Ok 2%Z, State [Submitted "1e+00_Zsun_merge_popsyn.slurm"; Submitted "1e-01_Zsun_merge_popsyn.slurm"] []).
Proof. do 2 eexists. split; [eexists; split; vm_compute; reflexivity|]. repeat split; vm_compute; reflexivity. Qed.
