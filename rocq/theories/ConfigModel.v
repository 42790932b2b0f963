(** ConfigFile, posydon/utils/configfile.py:100-228. *)
From Coq Require Import String List Bool ZArith DecimalString.
From Verif Require Import PyBase.
Import ListNotations.
Open Scope string_scope.
Open Scope list_scope.

(** The keys of dictionaries: strings, integers and others, which the json module refuses (booleans,
    floats and None, which it also accepts as keys, are left out). *)
Inductive key := KStr (s : string) | KInt (z : Z) | KOther (id : nat).
(** Values: numbers are those that json writes and reads back unchanged (ints and floats); objects
    are all that json does not know, like sets or numpy integers; numpy arrays have at least one
    dimension.  Objects containing themselves are left out. *)
Inductive pyval :=
| PNone | PBool (b : bool) | PNum (z : Z) | PStr (s : string) | PObj (id : nat)
| PList (l : list pyval) | PTuple (l : list pyval) | PArray (l : list pyval)
| PDict (d : list (key * pyval)).
Inductive jval :=
| JNull | JBool (b : bool) | JNum (z : Z) | JStr (s : string)
| JList (l : list jval) | JDict (d : list (string * jval)).

Definition key_eqb (a b : key) : bool :=
  match a, b with
  | KStr x, KStr y => String.eqb x y
  | KInt x, KInt y => Z.eqb x y
  | KOther x, KOther y => Nat.eqb x y
  | _, _ => false
  end.

(** sorted(dct.items()) for sort_keys=True: keys of one kind only. *)
Definition key_leb (a b : key) : option bool :=
  match a, b with
  | KStr x, KStr y => Some (String.leb x y)
  | KInt x, KInt y => Some (Z.leb x y)
  | _, _ => None
  end.
Section Sort.
  Context {A : Type}.
  Fixpoint insert_item (e : key * A) (l : list (key * A)) : result (list (key * A)) :=
    match l with
    | [] => Ok [e]
    | f :: r => match key_leb (fst e) (fst f) with
                | None => Raise TypeError
                | Some true => Ok (e :: l)
                | Some false => rbind (insert_item e r) (fun r' => Ok (f :: r'))
                end
    end.
  Fixpoint sort_items (l : list (key * A)) : result (list (key * A)) :=
    match l with
    | [] => Ok []
    | e :: r => rbind (sort_items r) (insert_item e)
    end.
End Sort.

(** The text of a key. *)
Definition key_text (k : key) : result string :=
  match k with
  | KStr s => Ok s
  | KInt z => Ok (NilZero.string_of_int (Z.to_int z))
  | KOther _ => Raise TypeError
  end.

(** json.dump(..., sort_keys=True, default=self._serialize): arrays become lists, and all other
    unknown objects become null, as _serialize (configfile.py:118-122) returns None for them.  The
    values are encoded before the keys are sorted here; any failure raises TypeError. *)
Fixpoint encode (v : pyval) : result jval :=
  match v with
  | PNone => Ok JNull
  | PBool b => Ok (JBool b)
  | PNum z => Ok (JNum z)
  | PStr s => Ok (JStr s)
  | PObj _ => Ok JNull
  | PList l | PTuple l | PArray l =>
      rbind ((fix go l := match l with
                          | [] => Ok []
                          | x :: r => rbind (encode x) (fun y => rbind (go r) (fun ys => Ok (y :: ys)))
                          end) l) (fun ys => Ok (JList ys))
  | PDict d =>
      rbind ((fix go (d : list (key * pyval)) : result (list (key * jval)) := match d with
                          | [] => Ok []
                          | (k, x) :: r => rbind (encode x) (fun y => rbind (go r) (fun ys => Ok ((k, y) :: ys)))
                          end) d) (fun ys =>
      rbind (sort_items ys) (fun sorted =>
      rbind ((fix go l := match l with
                          | [] => Ok []
                          | (k, y) :: r => rbind (key_text k) (fun t => rbind (go r) (fun ts => Ok ((t, y) :: ts)))
                          end) sorted) (fun ts => Ok (JDict ts))))
  end.

(** json.load *)
Fixpoint decode (j : jval) : pyval :=
  match j with
  | JNull => PNone
  | JBool b => PBool b
  | JNum z => PNum z
  | JStr s => PStr s
  | JList l => PList (map decode l)
  | JDict d => PDict (map (fun e => (KStr (fst e), decode (snd e))) d)
  end.

(** A file: well-formed JSON, or the beginning of one that was not finished. *)
Inductive content := Text (j : jval) | Unfinished.
Definition files := list (string * content).

(** The object: its entries (a Python dictionary), its path and other instance attributes. *)
Record config := Config { c_entries : list (key * pyval); c_path : option string; c_attrs : list (string * pyval) }.

(** configfile.py:124-146 *)
Definition save (c : config) (path : option string) (overwrite : bool) (fs : files) : files * result unit :=
  match (match path with Some p => Some p | None => c_path c end) with
  | None => (fs, Raise ValueError)
  | Some p =>
      if dmem String.eqb fs p && negb overwrite then (fs, Raise PermissionError)
      else match encode (PDict (c_entries c)) with
           | Ok j => (dset String.eqb fs p (Text j), Ok tt)
           | Raise e => (dset String.eqb fs p Unfinished, Raise e)
           end
  end.

(** configfile.py:148-177.  A file with anything but a dictionary raises (with can_update a list of
    pairs would be accepted). *)
Definition load (c : config) (path : option string) (can_update : bool) (fs : files) : config * result unit :=
  match (match path with Some p => Some p | None => c_path c end) with
  | None => (c, Raise ValueError)
  | Some p =>
      match dget String.eqb fs p with
      | None => (c, Raise FileNotFoundError)
      | Some Unfinished => (c, Raise (OtherError "JSONDecodeError"))
      | Some (Text j) =>
          match decode j with
          | PDict new =>
              if negb can_update && existsb (fun e => dmem key_eqb (c_entries c) (fst e)) new
              then (c, Raise PermissionError)
              else (Config (dset_all key_eqb (c_entries c) new) (c_path c) (c_attrs c), Ok tt)
          | _ => (c, Raise (if can_update then TypeError else AttributeError))
          end
      end
  end.

(** configfile.py:103-109 *)
Definition new_config (path : option string) (fs : files) : config * result unit :=
  let c := Config [] path [] in
  match path with
  | Some p => if dmem String.eqb fs p then load c path false fs else (c, Ok tt)
  | None => (c, Ok tt)
  end.

(** Access by item and by attribute, configfile.py:179-193: __getattr__ is only asked for names that
    are neither instance attributes nor defined by the class; assigning an attribute is Python's own. *)
Definition class_names : list string :=
  ["deepcopy"; "_serialize"; "save"; "load"; "update"; "keys"; "values"; "items"].
Inductive attribute := Entry (v : pyval) | Own (v : pyval) | Method.
Definition get_item (c : config) (k : key) : result pyval :=
  match dget key_eqb (c_entries c) k with Some v => Ok v | None => Raise KeyError end.
Definition set_item (c : config) (k : key) (v : pyval) : config :=
  Config (dset key_eqb (c_entries c) k v) (c_path c) (c_attrs c).
(** The names "entries" and "path", held in c_entries and c_path, are left out. *)
Definition get_attribute (c : config) (name : string) : result attribute :=
  match dget String.eqb (c_attrs c) name with
  | Some v => Ok (Own v)
  | None => if inb String.eqb name class_names then Ok Method
            else rbind (get_item c (KStr name)) (fun v => Ok (Entry v))
  end.
Definition set_attribute (c : config) (name : string) (v : pyval) : config :=
  Config (c_entries c) (c_path c) (dset String.eqb (c_attrs c) name v).
