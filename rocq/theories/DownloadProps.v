(** C46. *)
From Coq Require Import String List Bool Lia.
From Verif Require Import PyBase DownloadModel.
Import ListNotations.
Open Scope string_scope.
Open Scope list_scope.

Notation get := (dget String.eqb).
Lemma get_del_other : forall d k n, n <> k -> get (del d k) n = get d n.
Proof.
  induction d as [|[a v] d IH]; intros k n N; [reflexivity|]. cbn [del].
  destruct (String.eqb_spec k a) as [-> |K]; cbn [dget].
  - destruct (String.eqb_spec n a); [congruence | reflexivity].
  - destruct (String.eqb n a); [reflexivity | apply IH; exact N].
Qed.
Lemma del_dset : forall d k v, get d k = None -> del (dset String.eqb d k v) k = d.
Proof.
  induction d as [|[a x] d IH]; intros k v H; cbn [dset del].
  - rewrite String.eqb_refl. reflexivity.
  - cbn [dget] in H. destruct (String.eqb k a) eqn:E; [discriminate|]. cbn [del]. rewrite E, IH by exact H. reflexivity.
Qed.

Section D.
  Variable w : outside.
  Variable collection : list (string * dataset).

  (** C46: with a wrong checksum the archive is unpacked exactly if it could not be read for the
      check or could not be removed; otherwise nothing is unpacked, the files are as before, and
      the error is that the archive does not exist. *)
  Theorem checksum_exact : forall name url md5 content d,
    get collection name = Some (Dataset (Some url) (Some md5)) -> o_directory w = true ->
    get (f_files d) (basename url) = None -> o_fetch w url = Fetched content ->
    o_md5 w content <> md5 ->
    let (d', r) := download_one w collection name true d in
    if o_readable w (basename url) && o_removable_failed w (basename url)
    then d' = d /\ r = Raise FileNotFoundError
    else f_unpacked d' = f_unpacked d ++ [content].
  Proof using Type.
    intros name url md5 content d G D F FE M. unfold download_one. rewrite G. cbn [d_data d_md5].
    rewrite D. unfold dmem. rewrite F, FE. cbn [negb]. unfold check_md5.
    destruct (String.eqb_spec md5 (o_md5 w content)); [congruence|].
    destruct (o_readable w (basename url)); cbn [negb andb].
    - destruct (o_removable_failed w (basename url)); cbn [f_files f_unpacked].
      + rewrite del_dset by exact F. unfold unpack. cbn [f_files]. rewrite F. split; [destruct d; reflexivity | reflexivity].
      + unfold unpack. cbn [f_files f_unpacked]. rewrite (dget_dset_same String.eqb_spec).
        destruct (o_unpack w content); [reflexivity|]. destruct (o_removable_done w (basename url)); reflexivity.
    - unfold unpack. cbn [f_files f_unpacked]. rewrite (dget_dset_same String.eqb_spec).
      destruct (o_unpack w content); [reflexivity|]. destruct (o_removable_done w (basename url)); reflexivity.
  Qed.

  (** C46: what a download without an error has done: exactly the fetched archive was unpacked and
      removed, no other file changed, and it has the published checksum if this was to be checked,
      is known, and neither reading nor removing failed. *)
  Definition fetched_data (check : bool) (name content : string) : Prop :=
    exists url md5, get collection name = Some (Dataset (Some url) md5) /\ o_fetch w url = Fetched content /\
      (check = true -> o_readable w (basename url) = true -> o_removable_failed w (basename url) = true ->
       forall m, md5 = Some m -> o_md5 w content = m).
  Theorem download_done : forall name check d d', download_one w collection name check d = (d', Ok tt) ->
    exists content, fetched_data check name content /\
      f_files d' = f_files d /\ f_unpacked d' = f_unpacked d ++ [content].
  Proof using Type.
    intros name check d d' H. unfold download_one in H.
    destruct (get collection name) as [[[url|] md5]|] eqn:G; cbn [d_data d_md5] in H; [|congruence|congruence].
    destruct (o_directory w); cbn [negb] in H; [|congruence].
    unfold dmem in H. destruct (get (f_files d) (basename url)) eqn:F; [congruence|].
    destruct (o_fetch w url) as [content|part e] eqn:FE; [|congruence].
    set (file := basename url) in *.
    assert (forall dd, f_unpacked dd = f_unpacked d ->
      unpack w file dd = (d', Ok tt) -> f_files dd = dset String.eqb (f_files d) file content ->
      f_files d' = f_files d /\ f_unpacked d' = f_unpacked d ++ [content]) as U.
    { intros dd UD HU FD. unfold unpack in HU. rewrite FD, (dget_dset_same String.eqb_spec) in HU.
      destruct (o_unpack w content); [congruence|]. destruct (o_removable_done w file); [|congruence].
      cbn [f_files f_unpacked] in HU. assert (d' = Disk (del (dset String.eqb (f_files d) file content) file) (f_unpacked dd ++ [content])) as -> by congruence.
      cbn [f_files f_unpacked]. rewrite del_dset by exact F. rewrite UD. split; reflexivity. }
    exists content. split.
    - exists url, md5. split; [exact G|]. split; [exact FE|].
      intros -> R1 R2 m ->. unfold check_md5 in H. fold file in R1, R2. rewrite R1, R2 in H. cbn [negb] in H.
      destruct (String.eqb_spec m (o_md5 w content)) as [E|N]; [congruence|].
      cbn [f_files f_unpacked] in H. rewrite del_dset in H by exact F. unfold unpack in H. cbn [f_files] in H. rewrite F in H. congruence.
    - destruct md5 as [m|]; [|exact (U _ (eq_refl : f_unpacked (Disk (dset String.eqb (f_files d) file content) (f_unpacked d)) = f_unpacked d) H eq_refl)].
      destruct check; [|exact (U _ (eq_refl : f_unpacked (Disk (dset String.eqb (f_files d) file content) (f_unpacked d)) = f_unpacked d) H eq_refl)].
      unfold check_md5 in H. destruct (negb (o_readable w file)); [exact (U _ (eq_refl : f_unpacked (Disk (dset String.eqb (f_files d) file content) (f_unpacked d)) = f_unpacked d) H eq_refl)|].
      destruct (String.eqb m (o_md5 w content)); [exact (U _ (eq_refl : f_unpacked (Disk (dset String.eqb (f_files d) file content) (f_unpacked d)) = f_unpacked d) H eq_refl)|].
      destruct (o_removable_failed w file); [|exact (U _ (eq_refl : f_unpacked (Disk (dset String.eqb (f_files d) file content) (f_unpacked d)) = f_unpacked d) H eq_refl)].
      exfalso. cbn [f_files f_unpacked] in H. rewrite del_dset in H by exact F. unfold unpack in H. cbn [f_files] in H. rewrite F in H. congruence.
  Qed.

  (** Unless the data are fetched, nothing is unpacked and only a broken download leaves a file;
      an archive that already exists is never touched. *)
  Theorem download_refused : forall name check d,
    let (d', r) := download_one w collection name check d in
    match get collection name with
    | None => d' = d /\ r = Raise KeyError
    | Some (Dataset None _) => d' = d /\ r = Raise ValueError
    | Some (Dataset (Some url) _) =>
        if o_directory w then
          match get (f_files d) (basename url), o_fetch w url with
          | Some _, _ => d' = d /\ r = Raise FileExistsError
          | None, Broken part e => r = Raise e /\ f_unpacked d' = f_unpacked d /\
              (forall n, get (f_files d') n = if String.eqb n (basename url) then part else get (f_files d) n)
          | None, Fetched _ => forall n, n <> basename url -> get (f_files d') n = get (f_files d) n
          end
        else d' = d /\ r = Raise (OtherError "NotADirectoryError")
    end.
  Proof using Type.
    intros name check d. unfold download_one.
    destruct (get collection name) as [[[url|] md5]|] eqn:G; cbn [d_data d_md5]; [|split; reflexivity|split; reflexivity].
    destruct (o_directory w); cbn [negb]; [|split; reflexivity].
    unfold dmem. destruct (get (f_files d) (basename url)) eqn:F; [split; reflexivity|].
    set (file := basename url) in *.
    destruct (o_fetch w url) as [content|part e].
    - assert (forall dd, (forall n, n <> file -> get (f_files dd) n = get (f_files d) n) ->
        forall n, n <> file -> get (f_files (fst (unpack w file dd))) n = get (f_files d) n) as U.
      { intros dd HD n N. unfold unpack. destruct (get (f_files dd) file); [|apply HD; exact N].
        destruct (o_unpack w s); [apply HD; exact N|]. destruct (o_removable_done w file); cbn [fst f_files]; [|apply HD; exact N].
        rewrite get_del_other by exact N. apply HD. exact N. }
      assert (forall n, n <> file -> get (dset String.eqb (f_files d) file content) n = get (f_files d) n) as B.
      { intros n N. apply (dget_dset_other String.eqb_spec). exact N. }
      match goal with |- let (d', _) := unpack w file ?dd in _ => pose proof (U dd) as V; destruct (unpack w file dd) as [d' r] end.
      cbn [fst] in V. apply V. clear V U. destruct md5 as [m|]; [|exact B]. destruct check; [|exact B].
      unfold check_md5. destruct (negb _); [exact B|]. destruct (String.eqb m _); [exact B|].
      destruct (o_removable_failed w file); [|exact B]. cbn [f_files]. rewrite del_dset by exact F. reflexivity.
    - split; [reflexivity|]. destruct part as [p|]; cbn [f_files f_unpacked].
      + split; [reflexivity|]. intro n. rewrite (dget_dset String.eqb_spec). reflexivity.
      + split; [reflexivity|]. intro n. destruct (String.eqb_spec n file) as [-> |]; [exact F | reflexivity].
  Qed.

  (** After any failure that leaves the archive, trying again is refused. *)
  Theorem download_retry : forall name url md5 check d d' e,
    get collection name = Some (Dataset (Some url) md5) -> o_directory w = true ->
    download_one w collection name check d = (d', Raise e) -> get (f_files d') (basename url) <> None ->
    forall check', download_one w collection name check' d' = (d', Raise FileExistsError).
  Proof using Type.
    intros name url md5 check d d' e G D _ F check'. unfold download_one. rewrite G. cbn [d_data]. rewrite D.
    unfold dmem. cbn [negb]. destruct (get (f_files d') (basename url)); [reflexivity | congruence].
  Qed.

  (** A complete set without an error: the archives of all its data sets, in order. *)
  Theorem download_set_done : forall sets set_name check d d',
    data_download w collection sets set_name check d = (d', Ok tt) ->
    exists contents,
      Forall2 (fetched_data check) (match get sets set_name with Some names => names | None => [set_name] end) contents /\
      f_files d' = f_files d /\ f_unpacked d' = f_unpacked d ++ contents.
  Proof using Type.
    intros sets set_name check d d' H. unfold data_download in H. destruct (get sets set_name) as [names|].
    - revert d H. induction names as [|n names IH]; intros d H; cbn [download_list] in H.
      + exists []. split; [constructor|]. assert (d' = d) as -> by congruence. rewrite app_nil_r. split; reflexivity.
      + destruct (download_one w collection n check d) as [d1 [[]|e]] eqn:E; [|congruence].
        destruct (download_done _ _ _ _ E) as [c [C [FF FU]]]. destruct (IH _ H) as [cs [CS [FF' FU']]].
        exists (c :: cs). split; [constructor; assumption|]. split; [congruence|]. rewrite FU', FU, <- app_assoc. reflexivity.
    - destruct (dmem String.eqb collection set_name); [|congruence].
      destruct (download_done _ _ _ _ H) as [c [C [FF FU]]]. exists [c]. split; [repeat constructor; exact C|]. split; assumption.
  Qed.
End D.
Print Assumptions checksum_exact.
Print Assumptions download_done.
Print Assumptions download_refused.
Print Assumptions download_retry.
Print Assumptions download_set_done.

(** The tables: every member of a complete set is published with a checksum, the archives of one
    set have different names, and names are unique. *)
Theorem datasets_complete : forall set_name names, In (set_name, names) complete_sets ->
  NoDup names /\
  (forall n, In n names -> exists url md5, get zenodo_collection n = Some (Dataset (Some url) (Some md5))) /\
  (forall a b ua ub ma mb, In a names -> In b names -> a <> b ->
     get zenodo_collection a = Some (Dataset (Some ua) ma) -> get zenodo_collection b = Some (Dataset (Some ub) mb) ->
     basename ua <> basename ub).
Proof.
  intros s names I.
  assert (forallb (fun e => 
    forallb (fun n => match get zenodo_collection n with Some (Dataset (Some _) (Some _)) => true | _ => false end) (snd e) &&
    (fix nd l := match l with [] => true | x :: r => negb (inb String.eqb x r) && nd r end) (snd e) &&
    forallb (fun a => forallb (fun b => String.eqb a b ||
      match get zenodo_collection a, get zenodo_collection b with
      | Some (Dataset (Some ua) _), Some (Dataset (Some ub) _) => negb (String.eqb (basename ua) (basename ub))
      | _, _ => true end) (snd e)) (snd e)) complete_sets = true) as H by (vm_compute; reflexivity).
  rewrite forallb_forall in H. specialize (H _ I). cbn [snd] in H.
  apply andb_true_iff in H. destruct H as [H H3]. apply andb_true_iff in H. destruct H as [H1 H2]. split; [|split].
  - clear - H2. induction names as [|x r IH]; [constructor|]. apply andb_true_iff in H2. destruct H2 as [A B].
    constructor; [|apply IH; exact B]. destruct (inb_spec String.eqb_spec x r); [discriminate | assumption].
  - intros n N. rewrite forallb_forall in H1. specialize (H1 n N).
    destruct (get zenodo_collection n) as [[[u|] [m|]]|]; try discriminate. eauto.
  - intros a b ua ub ma mb A B NE GA GB. rewrite forallb_forall in H3. specialize (H3 a A).
    rewrite forallb_forall in H3. specialize (H3 b B). apply orb_true_iff in H3. destruct H3 as [E|E]; [apply String.eqb_eq in E; congruence|].
    rewrite GA, GB in E. intro Q. rewrite Q, String.eqb_refl in E. discriminate.
Qed.
Print Assumptions datasets_complete.

(** A world where everything works: the content of an archive is its address, and so is its md5. *)
Definition fine : outside :=
  Outside true (fun url => Fetched url) (fun _ => true) (fun _ => true) (fun _ => true) (fun _ => None)
    (fun c => match find (fun e => match d_data (snd e) with Some u => String.eqb u c | None => false end) zenodo_collection with
              | Some (_, Dataset _ (Some m)) => m | _ => "?" end).
Example download_case :
  exists d, data_download fine zenodo_collection complete_sets default_set true (Disk [("notes", "mine")] []) = (d, Ok tt) /\
    length (f_unpacked d) = 9 /\ f_files d = [("notes", "mine")] /\
    nth_error (f_unpacked d) 2 = Some "https://zenodo.org/records/21909570/files/POSYDON_data_DR2_grids_1Zsun.tar.gz".
Proof. eexists. split; [vm_compute; reflexivity|]. vm_compute. repeat split. Qed.

(** A changed archive that cannot be removed is unpacked without an error; one that can be removed
    leads to the wrong error. *)
Definition tampered (removable : bool) : outside :=
  Outside true (fun url => Fetched "something else") (fun _ => true) (fun _ => removable) (fun _ => true) (fun _ => None) (fun c => c).
Theorem checksum_refuted :
  download_one (tampered false) zenodo_collection "auxiliary" true (Disk [] []) = (Disk [] ["something else"], Ok tt) /\
  (forall md5, dget String.eqb zenodo_collection "auxiliary" = Some md5 -> d_md5 md5 <> Some (o_md5 (tampered false) "something else")) /\
  download_one (tampered true) zenodo_collection "auxiliary" true (Disk [] []) = (Disk [] [], Raise FileNotFoundError).
Proof.
  split; [vm_compute; reflexivity|]. split; [|vm_compute; reflexivity].
  intros md5 H. vm_compute in H. assert (md5 = Dataset (Some "https://zenodo.org/records/21909570/files/POSYDON_data_auxiliary.tar.gz") (Some "a7434279e38e701f580995cebb1b54fb")) as -> by congruence.
  vm_compute. discriminate.
Qed.
Print Assumptions checksum_refuted.

(** download_one_dataset without arguments always fails: its default is the name of a complete set. *)
Theorem default_dataset_refuted : forall w check d,
  download_one w zenodo_collection default_dataset check d = (d, Raise KeyError) /\
  get complete_sets default_dataset <> None.
Proof. intros. split; [reflexivity | discriminate]. Qed.
Print Assumptions default_dataset_refuted.

(** A data set whose archive does not unpack stays blocked. *)
Example download_retry_case :
  let w := Outside true (fun url => Fetched url) (fun _ => false) (fun _ => true) (fun _ => true) (fun _ => Some (OtherError "ReadError")) (fun c => c) in
  let (d, r) := download_one w zenodo_collection "auxiliary" true (Disk [] []) in
  r = Raise (OtherError "ReadError") /\ get (f_files d) "POSYDON_data_auxiliary.tar.gz" <> None /\
  download_one w zenodo_collection "auxiliary" true d = (d, Raise FileExistsError).
Proof. vm_compute. repeat split; try reflexivity. discriminate. Qed.
