(** download_one_dataset and data_download, posydon/utils/data_download.py, with the tables of
    posydon/utils/datasets.py. *)
From Coq Require Import String Ascii List Bool.
From Verif Require Import PyBase.
Import ListNotations.
Open Scope char_scope.
Open Scope string_scope.
Open Scope list_scope.

(** datasets.py: the address of the data and the checksum of every data set. *)
Record dataset := Dataset { d_data : option string; d_md5 : option string }.
Definition zenodo_collection : list (string * dataset) := [
  ("POSYDON", Dataset None None);
  ("auxiliary", Dataset (Some "https://zenodo.org/records/21909570/files/POSYDON_data_auxiliary.tar.gz") (Some "a7434279e38e701f580995cebb1b54fb"));
  ("DR1_for_v2.0.0-pre1", Dataset (Some "https://zenodo.org/records/14205146/files/POSYDON_data.tar.gz") (Some "cf645a45b9b92c2ad01e759eb1950beb"));
  ("DR1-super_Eddington", Dataset (Some "https://zenodo.org/records/14216817/files/POSYDON_data_super_Eddington.tar.gz") (Some "64b46fbd65cb54819371a1cbc714019c"));
  ("DR2_grids_2Zsun", Dataset (Some "https://zenodo.org/records/21909570/files/POSYDON_data_DR2_grids_2Zsun.tar.gz") (Some "6505fe4262f89150373dec36b5789cf4"));
  ("DR2_grids_1Zsun", Dataset (Some "https://zenodo.org/records/21909570/files/POSYDON_data_DR2_grids_1Zsun.tar.gz") (Some "e279f47a5c18224a90937d3d86478c20"));
  ("DR2_grids_0.45Zsun", Dataset (Some "https://zenodo.org/records/21909570/files/POSYDON_data_DR2_grids_0.45Zsun.tar.gz") (Some "2a1fc384b40bc22f20623c2c88e138c7"));
  ("DR2_grids_0.2Zsun", Dataset (Some "https://zenodo.org/records/21909570/files/POSYDON_data_DR2_grids_0.2Zsun.tar.gz") (Some "73935a00e71635f01150b960c7efb9be"));
  ("DR2_grids_0.1Zsun", Dataset (Some "https://zenodo.org/records/21909570/files/POSYDON_data_DR2_grids_0.1Zsun.tar.gz") (Some "474b86e19a1e659cadf11c92c4caca73"));
  ("DR2_grids_0.01Zsun", Dataset (Some "https://zenodo.org/records/21909570/files/POSYDON_data_DR2_grids_0.01Zsun.tar.gz") (Some "11934f5cbf49d738d3412a9a467003b0"));
  ("DR2_grids_1e-3Zsun", Dataset (Some "https://zenodo.org/records/21909570/files/POSYDON_data_DR2_grids_1e-3Zsun.tar.gz") (Some "c48046871d0671b2338943fca5d9ec0c"));
  ("DR2_grids_1e-4Zsun", Dataset (Some "https://zenodo.org/records/21909570/files/POSYDON_data_DR2_grids_1e-4Zsun.tar.gz") (Some "32c070fa87932a97f93df8ec195bf41e"));
  ("v2_tutorial_populations", Dataset (Some "https://zenodo.org/records/15708476/files/POSYDON_tutorial_populations.tar.gz") (Some "d66d181bbd74d3cd30b4360729034566"));
  ("2025_school_data", Dataset (Some "https://zenodo.org/records/17902460/files/POSYDON_2025_school_data.tar.gz") (Some "c675fbcae43962b99bbbd8599cb21eff"))].

(** datasets.py: the data sets making up a complete set. *)
Definition complete_sets : list (string * list string) := [
  ("DR1", ["DR1_for_v2.0.0-pre1"]);
  ("DR1.1", ["DR1_for_v2.0.0-pre1"; "DR1-super_Eddington"]);
  ("DR2", ["auxiliary"; "DR2_grids_2Zsun"; "DR2_grids_1Zsun"; "DR2_grids_0.45Zsun"; "DR2_grids_0.2Zsun"; "DR2_grids_0.1Zsun"; "DR2_grids_0.01Zsun"; "DR2_grids_1e-3Zsun"; "DR2_grids_1e-4Zsun"]);
  ("DR2_2Zsun", ["auxiliary"; "DR2_grids_2Zsun"]);
  ("DR2_1Zsun", ["auxiliary"; "DR2_grids_1Zsun"]);
  ("DR2_0.45Zsun", ["auxiliary"; "DR2_grids_0.45Zsun"]);
  ("DR2_0.2Zsun", ["auxiliary"; "DR2_grids_0.2Zsun"]);
  ("DR2_0.1Zsun", ["auxiliary"; "DR2_grids_0.1Zsun"]);
  ("DR2_0.01Zsun", ["auxiliary"; "DR2_grids_0.01Zsun"]);
  ("DR2_1e-3Zsun", ["auxiliary"; "DR2_grids_1e-3Zsun"]);
  ("DR2_1e-4Zsun", ["auxiliary"; "DR2_grids_1e-4Zsun"]);
  ("v2_tutorial_populations", ["v2_tutorial_populations"]);
  ("2025_school_data", ["2025_school_data"])].

(** os.path.basename: the part behind the last slash. *)
Fixpoint after_slash (s acc : string) : string :=
  match s with
  | EmptyString => acc
  | String c r => after_slash r (if Ascii.eqb c "/"%char then EmptyString else (acc ++ String c EmptyString)%string)
  end.
Definition basename (s : string) : string := after_slash s EmptyString.

(** What happens outside the program: the download of an address (an interrupted one may leave a
    part of the file), reading the archive for the checksum, removing it (after a failed check
    and at the end), unpacking.  The contents of files are strings; md5 is any function of them. *)
Inductive fetched := Fetched (content : string) | Broken (part : option string) (e : exn).
Record outside := Outside {
  o_directory : bool;                       (* the directory of PATH_TO_POSYDON_DATA exists *)
  o_fetch : string -> fetched;
  o_readable : string -> bool;
  o_removable_failed : string -> bool;
  o_removable_done : string -> bool;
  o_unpack : string -> option exn;          (* exception when unpacking a content *)
  o_md5 : string -> string }.

(** The files next to the data and the contents unpacked so far, completely or in part. *)
Record disk := Disk { f_files : list (string * string); f_unpacked : list string }.

Fixpoint del (d : list (string * string)) (k : string) : list (string * string) :=
  match d with
  | [] => []
  | (k', v) :: r => if String.eqb k k' then r else (k', v) :: del r k
  end.

Section Download.
  Variable w : outside.

  (** data_download.py:166-188: reading, comparing and removing; every exception is swallowed by
      the bare except. *)
  Definition check_md5 (file content md5 : string) (d : disk) : disk :=
    if negb (o_readable w file) then d
    else if String.eqb md5 (o_md5 w content) then d
    else if o_removable_failed w file then Disk (del (f_files d) file) (f_unpacked d)   (* then ValueError, swallowed *)
    else d.

  (** data_download.py:190-201 *)
  Definition unpack (file : string) (d : disk) : disk * result unit :=
    match dget String.eqb (f_files d) file with
    | None => (d, Raise FileNotFoundError)
    | Some content =>
        let d' := Disk (f_files d) (f_unpacked d ++ [content]) in
        match o_unpack w content with
        | Some e => (d', Raise e)
        | None =>
            if o_removable_done w file then (Disk (del (f_files d') file) (f_unpacked d'), Ok tt)
            else (d', Raise PermissionError)
        end
    end.

  (** data_download.py:127-201; [dataset] is a string. *)
  Definition download_one (collection : list (string * dataset)) (name : string) (check : bool) (d : disk)
    : disk * result unit :=
    match dget String.eqb collection name with
    | None => (d, Raise KeyError)
    | Some ds =>
        match d_data ds with
        | None => (d, Raise ValueError)
        | Some url =>
            let file := basename url in
            if negb (o_directory w) then (d, Raise (OtherError "NotADirectoryError"))
            else if dmem String.eqb (f_files d) file then (d, Raise FileExistsError)
            else match o_fetch w url with
            | Broken part e =>
                (match part with Some p => Disk (dset String.eqb (f_files d) file p) (f_unpacked d) | None => d end, Raise e)
            | Fetched content =>
                let d1 := Disk (dset String.eqb (f_files d) file content) (f_unpacked d) in
                let d2 := match d_md5 ds with
                          | Some md5 => if check then check_md5 file content md5 d1 else d1
                          | None => d1
                          end in
                unpack file d2
            end
        end
    end.

  (** data_download.py:203-230; [set_name] is a string. *)
  Fixpoint download_list (collection : list (string * dataset)) (names : list string) (check : bool) (d : disk)
    : disk * result unit :=
    match names with
    | [] => (d, Ok tt)
    | n :: r =>
        match download_one collection n check d with
        | (d', Ok _) => download_list collection r check d'
        | (d', Raise e) => (d', Raise e)
        end
    end.
  Definition data_download (collection : list (string * dataset)) (sets : list (string * list string))
      (set_name : string) (check : bool) (d : disk) : disk * result unit :=
    match dget String.eqb sets set_name with
    | Some names => download_list collection names check d
    | None => if dmem String.eqb collection set_name then download_one collection set_name check d
              else (d, Raise KeyError)
    end.
End Download.

(** The default of the parameter [dataset], data_download.py:127. *)
Definition default_dataset : string := "DR2_1Zsun".
Definition default_set : string := "DR2".
