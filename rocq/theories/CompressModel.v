(** Model of posydon/utils/compress_mesa_files.py: what is selected for removal and compression, and what the compression leaves. *)
From Coq Require Import String Ascii Bool List Arith ZArith QArith.
From Verif Require Import PyBase PyStr.
Import ListNotations.
Open Scope list_scope.
Open Scope string_scope.

(** os.path.splitext of a name without slashes: the last dot parts the extension, unless only dots precede it. *)
Fixpoint last_dot (s : string) : option (string * string) :=
  match s with
  | EmptyString => None
  | String c r => match last_dot r with
    | Some (a, b) => Some (String c a, b)
    | None => if Ascii.eqb c "." then Some ("", s) else None
    end
  end.
Fixpoint all_dots (s : string) : bool := match s with EmptyString => true | String c r => Ascii.eqb c "." && all_dots r end.
Definition splitext (s : string) : string * string :=
  match last_dot s with
  | Some (a, b) => if all_dots a then (s, "") else (a, b)
  | None => (s, "")
  end.
(** os.path.basename and os.path.join (of a path and a name) *)
Fixpoint basename (s : string) : string :=
  match s with
  | EmptyString => ""
  | String c r => if py_in "/" r then basename r else if Ascii.eqb c "/" then r else s
  end.
Fixpoint ends_with (suf s : string) : bool := String.eqb suf s || match s with EmptyString => false | String _ r => ends_with suf r end.
Definition join (p n : string) : string := if String.eqb p "" then n else if ends_with "/" p then p ++ n else p ++ "/" ++ n.

(** What is no directory is a regular file with its bytes, or a symbolic link, whose target may be there or not (targets are outside of what is walked). *)
Inductive file := Regular (bytes : string) | Link (alive : bool).
(** What os.walk yields: the paths of all directories with the names of what is in them and is no directory.  Directories never change here. *)
Definition entries := list (string * file).
Definition tree := list (string * entries).
Definition is_file (f : file) : bool := match f with Regular _ => true | Link alive => alive end.

(** compress_mesa_files.py 158-221 (get_size) *)
Definition MARK : string := "_grid_index_".
Definition to_remove (n : string) : bool := String.eqb (fst (splitext n)) "core".
Definition to_compress (n : string) : bool := negb (to_remove n) && existsb (String.eqb (snd (splitext n))) [".data"; ".mod"; ".txt"].
Definition size (f : file) : nat := match f with Regular b => String.length b | Link _ => 0 end.
Definition sum (l : list nat) : nat := fold_right Nat.add 0%nat l.
Definition total_size (t : tree) : nat := sum (map (fun d => sum (map (fun e => size (snd e)) (snd d))) t).
Definition selected (sel : string -> bool) (t : tree) : list (string * list string) :=
  filter (fun d => negb (Nat.eqb (List.length (snd d)) 0))
    (map (fun d => (fst d, if py_in MARK (fst d) then filter sel (map fst (snd d)) else [])) t).
Record summary := Summary { total : nat; remove_files : list (string * list string); compress_files : list (string * list string); n_runs : nat; n_remove : nat; n_compress : nat }.
Definition count (l : list (string * list string)) : nat := sum (map (fun d => List.length (snd d)) l).
Definition get_size (t : tree) : summary :=
  let r := selected to_remove t in let c := selected to_compress t in
  Summary (total_size t) r c (List.length (filter (fun d => py_in MARK (fst d) && py_in MARK (basename (fst d))) t)) (count r) (count c).

(** Looking up, removing and changing files of the tree *)
Definition lookup (t : tree) (p n : string) : option file :=
  match find (fun d => String.eqb (fst d) p) t with
  | Some d => match find (fun e => String.eqb (fst e) n) (snd d) with Some e => Some (snd e) | None => None end
  | None => None
  end.
Definition present (t : tree) (p n : string) : bool := match lookup t p n with Some f => is_file f | None => false end.
Definition remove (t : tree) (p n : string) : tree :=
  map (fun d => (fst d, filter (fun e => negb (String.eqb (fst d) p && String.eqb (fst e) n)) (snd d))) t.

Section Compress.
  (** Whether a file can be removed (else 253-254 prints), and what gzip -1 makes of the bytes of a file. *)
  Variables (removable : string -> string -> bool) (deflate : string -> string).
  (** The command gzip for one of its words: regular files become their compression with .gz added to the name, but not if that is there already or the name ends
      with .gz; links and anything not in the tree are left alone (files elsewhere are not modelled). *)
  Definition zip_entry (es : entries) (e : string * file) : string * file :=
    match snd e with
    | Regular b => if existsb (fun e' => String.eqb (fst e') (fst e ++ ".gz")) es then e else (fst e ++ ".gz", Regular (deflate b))
    | Link _ => e
    end.
  Definition gzip (t : tree) (w : string) : tree :=
    if ends_with ".gz" w then t
    else map (fun d => (fst d, map (fun e => if String.eqb (join (fst d) (fst e)) w then zip_entry (snd d) e else e) (snd d))) t.
  (** The words of a command line: the shell parts them at spaces (other characters special to it are not modelled). *)
  Fixpoint words_from (cur s : string) : list string :=
    match s with
    | EmptyString => if String.eqb cur "" then [] else [cur]
    | String c r => if Ascii.eqb c " " then if String.eqb cur "" then words_from "" r else cur :: words_from "" r else words_from (cur ++ String c "") r
    end.
  Definition words (s : string) : list string := words_from "" s.
  (** compress_mesa_files.py 246-257: the loop over the files to remove *)
  Fixpoint removing (t : tree) (l : list (string * string)) : tree * option exn :=
    match l with
    | [] => (t, None)
    | (p, n) :: r => if present t p n then removing (if removable p n then remove t p n else t) r else (t, Some FileNotFoundError)
    end.
  (** compress_mesa_files.py 262-270: the loop over the files to compress; line 269 names a variable of the loop before, which is bound only if that had any file. *)
  Fixpoint compressing (bound : bool) (t : tree) (l : list (string * string)) : tree * option exn :=
    match l with
    | [] => (t, None)
    | (p, n) :: r => if present t p n then compressing bound (fold_left gzip (words (join p n)) t) r
                     else (t, Some (if bound then FileNotFoundError else OtherError "UnboundLocalError"))
    end.
  Definition flat (l : list (string * list string)) : list (string * string) := flat_map (fun d => map (fun n => (fst d, n)) (snd d)) l.
  (** compress_mesa_files.py 240-284 (compress_dir for a directory): the tree afterwards, and the sizes before and after and the files still to remove and to compress
      (279-284 warn about these), or the exception. *)
  Definition compress_dir (t : tree) : tree * result (nat * nat * list (string * list string) * list (string * list string)) :=
    let s := get_size t in
    match removing t (flat (remove_files s)) with
    | (t1, Some e) => (t1, Raise e)
    | (t1, None) => match compressing (negb (Nat.eqb (List.length (flat (remove_files s))) 0)) t1 (flat (compress_files s)) with
      | (t2, Some e) => (t2, Raise e)
      | (t2, None) => let s2 := get_size t2 in (t2, Ok (total s, total s2, remove_files s2, compress_files s2))
      end
    end.
End Compress.

(** compress_mesa_files.py 59-99 (textsize): whether there is a minus, the quantity (before it is formatted) and the unit; without unit, line 99 writes "bytes". *)
Definition UNITS : list string := ["b"; "K"; "M"; "G"; "T"; "P"; "E"; "Z"; "Y"].
Fixpoint choose (units : list string) (value base threshold filesize : Q) : Q * option string :=
  match units with
  | [] => (filesize, None)
  | u :: r => if Qle_bool (value * threshold) filesize then choose r (value * base) base threshold filesize else ((filesize / value)%Q, Some u)
  end.
Definition textsize (filesize : Q) (base : Z) (threshold : Q) : result (bool * Q * option string) :=
  if negb (Z.eqb base 1000 || Z.eqb base 1024) then Raise ValueError
  else if Qle_bool threshold 0 then Raise ValueError
  else if negb (Qle_bool threshold (inject_Z base)) then Raise ValueError
  else let negative := negb (Qle_bool 0 filesize) in
       let '(q, u) := choose UNITS 1 (inject_Z base) threshold (if negative then - filesize else filesize)%Q in Ok (negative, q, u).
