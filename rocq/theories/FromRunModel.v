(** Stars and binaries made from the runs of a grid: BinaryStar.from_run (posydon/binary_evol/binarystar.py:981-1093) and SingleStar.from_run
    (singlestar.py:598-646).

    A table is a list of columns, a record of a structured array a list of fields.  [check_state_of_star] and
    [get_binary_state_and_event_and_mt_case] are parameters; they read the object and do not change it. *)
From Coq Require Import Reals String Bool List Arith.
From Verif Require Import PyBase PyStr StarInitModel.
From Verif Require BinaryModel.
Import ListNotations.
Open Scope string_scope.
Open Scope nat_scope.
Open Scope list_scope.

Definition table := list (string * list val).
Record run := Run { binary_history : option table; history1 : option table; history2 : option table;
                    final_values : kwargs; initial_values : kwargs; final_profile1 : val; final_profile2 : val }.
(** numpy: no field of this name *)
Definition field (r : kwargs) (k : string) : result val := match kget r k with Some v => Ok v | None => Raise ValueError end.
Definition column (t : table) (k : string) : result (list val) := match dget String.eqb t k with Some l => Ok l | None => Raise ValueError end.
Definition has_column (t : table) (k : string) : bool := existsb (fun c => String.eqb (fst c) k) t.
Definition AssertionError : exn := OtherError "AssertionError".
Fixpoint rfold {A B : Type} (f : A -> B -> result A) (l : list B) (a : A) : result A :=
  match l with [] => Ok a | x :: l' => rbind (f a x) (rfold f l') end.
Fixpoint rmap {A B : Type} (f : A -> result B) (l : list A) : result (list B) :=
  match l with [] => Ok [] | x :: l' => rbind (f x) (fun y => rbind (rmap f l') (fun ys => Ok (y :: ys))) end.

(** binarystar.py:63-85 and singlestar.py:114-120 *)
Definition STAR_ATTRIBUTES_FROM_STAR_HISTORY : list (string * option string) :=
  [("state", None); ("metallicity", None); ("mass", None); ("lg_mdot", None); ("lg_system_mdot", None); ("lg_wind_mdot", None); ("spin", Some "spin_parameter"); ("profile", None)].
Definition BINARY_ATTRIBUTES_FROM_HISTORY : list (string * option string) :=
  [("state", None); ("event", None); ("time", Some "age"); ("separation", Some "binary_separation"); ("orbital_period", Some "period_days"); ("eccentricity", None);
   ("V_sys", None); ("mass_transfer_case", None); ("nearest_neighbour_distance", None)].
Definition STAR_ATTRIBUTES_FROM_STAR_HISTORY_SINGLE : list (string * option string) :=
  [("state", None); ("metallicity", None); ("mass", Some "star_mass"); ("spin", Some "spin_parameter"); ("profile", None)].
(** binarystar.py:55-60 for one of the stars *)
Definition STAR_ATTRIBUTES_FROM_BINARY_HISTORY (second : bool) : list (string * string) :=
  if second then [("mass", "star_2_mass"); ("lg_mdot", "lg_mstar_dot_2"); ("lg_system_mdot", "lg_system_mdot_2"); ("lg_wind_mdot", "lg_wind_mdot_2")]
  else [("mass", "star_1_mass"); ("lg_mdot", "lg_mstar_dot_1"); ("lg_system_mdot", "lg_system_mdot_1"); ("lg_wind_mdot", "lg_wind_mdot_1")].
Definition colname_of (d : list (string * option string)) (p : string) : option string := match dget String.eqb d p with Some c => c | None => Some p end.

(** The value and the history of one property: binarystar.py:990-999, 1014-1023, singlestar.py:611-620 *)
Definition fetch (t : table) (fv : kwargs) (prefix : string) (history : bool) (c : string) : result (val * list val) :=
  rbind (field fv (prefix ++ c)%string) (fun v => rbind (if history then column t c else Ok [v]) (fun h => Ok (v, h))).
Definition load (d : list (string * option string)) (t : table) (fv : kwargs) (prefix : string) (history : bool) (n : nat) (p : string) : result (val * list val) :=
  match colname_of d p with
  | Some c => if has_column t c then fetch t fv prefix history c else Ok (Nil, repeat Nil n)
  | None => Ok (Nil, repeat Nil n)
  end.
Definition store (n : nat) (p : string) (o : attrs) (vh : val * list val) : result attrs :=
  if length (snd vh) =? n then Ok (setattr (setattr o (hist p) (Lst (snd vh))) p (fst vh)) else Raise AssertionError.
Definition load_all (d : list (string * option string)) (t : table) (fv : kwargs) (prefix : string) (history : bool) (n : nat) (props : list string) (o : attrs) : result attrs :=
  rfold (fun o p => rbind (load d t fv prefix history n p) (store n p o)) props o.
(** binarystar.py:1037-1046 *)
Definition load_from_binary (t : table) (fv : kwargs) (history : bool) (n : nat) (second : bool) (o : attrs) : result attrs :=
  rfold (fun o (pc : string * string) => rbind (fetch t fv "" history (snd pc)) (store n (fst pc) o))
    (STAR_ATTRIBUTES_FROM_BINARY_HISTORY second) o.
(** binarystar.py:1049-1062: the three groups of fields *)
Definition at_He (k : string) : bool := py_in "at_He_depletion" k.
Definition from_to_end (k : string) (i : nat) : string := substring i (String.length k - i) k.
Definition at_He_star (tag : string) (o : attrs) (kv : string * val) : attrs :=
  if at_He (fst kv) && String.eqb (substring 0 3 (fst kv)) tag then setattr o (from_to_end (fst kv) 3) (snd kv) else o.
Definition at_He_binary (o : attrs) (kv : string * val) : attrs :=
  if at_He (fst kv) && negb (String.eqb (substring 0 3 (fst kv)) "S1_") && negb (String.eqb (substring 0 3 (fst kv)) "S2_") then setattr o (fst kv) (snd kv) else o.
(** binarystar.py:1072-1076, singlestar.py:638-640; [last] of no states raises *)
Definition star_states (chk : attrs -> nat -> bool -> result val) (is_CO : bool) (n : nat) (o : attrs) : result attrs :=
  rbind (rmap (fun i => chk o i is_CO) (seq 0 n)) (fun l =>
  match rev l with [] => Raise IndexError | v :: _ => Ok (setattr (setattr o "state_history" (Lst l)) "state" v) end).
(** binarystar.py:1082-1087 *)
Definition push (o : attrs) (p : string) (v : val) : attrs :=
  setattr (setattr o p v) (hist p) (Lst (match o (hist p) with Some (Lst l) => l | _ => [] end ++ [v])).
Definition push3 (o : attrs) (r : val * val * val) : attrs :=
  let '(s, e, c) := r in push (push (push o "state" s) "event" e) "mass_transfer_case" c.
Definition binary_states (sts : binary -> nat -> result (val * val * val)) (n : nat) (b : binary) : result binary :=
  rfold (fun b i => rbind (sts b i) (fun r => Ok (Bin (push3 (b_attrs b) r) (b_star1 b) (b_star2 b)))) (seq 0 n)
    (Bin (fold_left (fun o p => setattr o (hist p) (Lst [])) ["state"; "event"; "mass_transfer_case"] (b_attrs b)) (b_star1 b) (b_star2 b)).
Definition set_one (n : nat) (p : string) (v : val) (o : attrs) : attrs := setattr (setattr o p v) (hist p) (Lst (repeat v n)).
Definition is_none {A} (x : option A) : bool := match x with None => true | Some _ => false end.

Definition BinaryStar_from_run (chk : attrs -> nat -> bool -> result val) (sts : binary -> nat -> result (val * val * val)) (r : run) (history profiles : bool) : result binary :=
  rbind (BinaryStar None None []) (fun b =>
  match binary_history r with
  | None => Ok b
  | Some t =>
      rbind (if history then rbind (column t "age") (fun l => Ok (length l)) else Ok 1) (fun n =>
      rbind (load_all BINARY_ATTRIBUTES_FROM_HISTORY t (final_values r) "" history n BinaryModel.BINARYPROPERTIES (b_attrs b)) (fun o =>
      let one h prefix s := match h with None => Ok s | Some h => load_all STAR_ATTRIBUTES_FROM_STAR_HISTORY h (final_values r) prefix history n BinaryModel.STARPROPERTIES s end in
      rbind (one (history1 r) "S1_" (b_star1 b)) (fun s1 =>
      rbind (one (history2 r) "S2_" (b_star2 b)) (fun s2 =>
      rbind (field (initial_values r) "Z") (fun z =>
      rbind (load_from_binary t (final_values r) history n false (set_one n "metallicity" z s1)) (fun s1 =>
      rbind (load_from_binary t (final_values r) history n true (set_one n "metallicity" z s2)) (fun s2 =>
      let s1 := fold_left (at_He_star "S1_") (final_values r) s1 in
      let s2 := fold_left (at_He_star "S2_") (final_values r) s2 in
      let o := set_one n "eccentricity" (num 0) (fold_left at_He_binary (final_values r) o) in
      rbind (star_states chk (is_none (history1 r)) n s1) (fun s1 =>
      rbind (star_states chk (is_none (history2 r)) n s2) (fun s2 =>
      rbind (binary_states sts n (Bin o s1 s2)) (fun b =>
      Ok (if profiles then Bin (b_attrs b) (setattr (b_star1 b) "profile" (final_profile1 r)) (setattr (b_star2 b) "profile" (final_profile2 r)) else b)))))))))))
  end).

(** singlestar.py:598-646 *)
Definition SingleStar_from_run (chk : attrs -> nat -> bool -> result val) (r : run) (history profile : bool) : result attrs :=
  rbind (SingleStar []) (fun s =>
  match history1 r with
  | None => Ok s
  | Some t =>
      rbind (if history then rbind (column t "star_age") (fun l => Ok (length l)) else Ok 1) (fun n =>
      rbind (load_all STAR_ATTRIBUTES_FROM_STAR_HISTORY_SINGLE t (final_values r) "S1_" history n BinaryModel.STARPROPERTIES s) (fun s =>
      rbind (field (initial_values r) "Z") (fun z =>
      rbind (star_states chk false n (fold_left (at_He_star "S1_") (final_values r) (setattr s "metallicity" z))) (fun s =>
      Ok (if profile then setattr (setattr s "profile_history" (Lst (repeat Nil (n - 1) ++ [final_profile1 r]))) "profile" (final_profile1 r) else s)))))
  end).

(** The part of check_state_of_star (posydon/utils/common_functions.py:1072-1077) for compact objects; an attribute which is no list cannot be
    subscripted *)
Definition check_CO (s : attrs) (i : nat) : result val :=
  match s "mass_history", s "state_history" with
  | Some (Lst ms), Some (Lst ss) =>
      match nth_error ms i with
      | None => Raise IndexError
      | Some m =>
          match rev ss with
          | [] => Raise IndexError
          | st :: _ =>
              let is_WD v := match v with Some (Txt x) => String.eqb x "WD" | _ => false end in
              if is_WD (Some st) || is_WD (s "state") then Ok (Txt "WD") else rbind (infer_CO m [nan; nan; nan; nan]) (fun x => Ok (Txt x))
          end
      end
  | _, _ => Raise TypeError
  end.
