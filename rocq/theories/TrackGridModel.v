(** Model of GRIDInterpolator, posydon/interpolation/interpolation.py:319-767: interpolation between tracks of single stars.

    Values are exact rationals; NaN only among final values.  A run of the grid is its history, final values, states and final profile, by the names the
    interpolator uses (the translation of names, lines 416-468, and files are not modelled; all names are assumed present).  grid_data, grid_final_values and
    grid_profile hold, for each initial mass, what load_grid (518-553) puts there: the data of the first run with that mass.  log10(0.99) is a parameter. *)
From Coq Require Import String List QArith Bool.
From Verif Require Import PyBase InterpModel.
Import ListNotations.
Open Scope string_scope.
Open Scope nat_scope.
Open Scope list_scope.

Record run := Run { r_history : string -> list Q; r_final : string -> option Q; r_state : string -> string; r_profile : string -> list Q }.
(** history1['star_mass'][0], lines 340-342 *)
Definition r_mass (r : run) : Q := hd 0%Q (r_history r "mass").
Definition grid_mass (grid : list run) : list Q := map r_mass grid.
Definition in_grid (M : Q) (grid : list run) : bool := existsb (Qeq_bool M) (grid_mass grid).
(** The run whose data are filed under the mass [m]: np.argmax(m == grid_mass), line 529 *)
Definition filed (m : Q) (grid : list run) : result run :=
  match find (fun r => Qeq_bool m (r_mass r)) grid with Some r => Ok r | None => Raise KeyError end.

(** np.max and np.min, ValueError if empty *)
Definition np_max (l : list Q) : result Q := match l with [] => Raise ValueError | x :: l' => Ok (fold_left (fun a b => if qlt a b then b else a) l' x) end.
Definition np_min (l : list Q) : result Q := match l with [] => Raise ValueError | x :: l' => Ok (fold_left (fun a b => if qlt b a then b else a) l' x) end.
(** Lines 588-589, 631-632, 686-687, 724-725 *)
Definition below (M : Q) (grid : list run) : list Q := filter (fun m => qlt m M) (grid_mass grid).
Definition above (M : Q) (grid : list run) : list Q := filter (fun m => qlt M m) (grid_mass grid).

(** np.argmax(log10(0.99) + log_L <= log_LH): 0 if never *)
Fixpoint first_true (l : list bool) : option nat := match l with [] => None | true :: _ => Some 0 | false :: l' => option_map S (first_true l') end.
Definition i_zams (c99 : Q) (log_L log_LH : list Q) : nat :=
  match first_true (map (fun p => Qle_bool (c99 + fst p) (snd p)) (combine log_L log_LH)) with Some i => i | None => 0 end.
Definition mix (w : Q) (low high : list Q) : list Q := map (fun p => (fst p + w * (snd p - fst p))%Q) (combine low high).

(** get, lines 560-623 *)
Definition finish (key : string) (i : nat) (k : list Q) : list Q :=
  skipn i (if String.eqb key "age" then map (fun x => (x - nth i k 0)%Q) k else k).
Definition get (c99 : Q) (grid : list run) (key : string) (M : Q) : result (list Q) :=
  if in_grid M grid then
    rbind (filed M grid) (fun r => Ok (finish key (i_zams c99 (r_history r "log_L") (r_history r "log_LH")) (r_history r key)))
  else
    rbind (np_max (below M grid)) (fun low => rbind (np_min (above M grid)) (fun high =>
    let w := ((M - low) / (high - low))%Q in
    rbind (filed low grid) (fun rl => rbind (filed high grid) (fun rh =>
    let cut := min (length (r_history rl key)) (length (r_history rh key)) in
    let mixed k := mix w (firstn cut (r_history rl k)) (firstn cut (r_history rh k)) in
    Ok (finish key (i_zams c99 (mixed "log_L") (mixed "log_LH")) (mixed key)))))).

(** get_final_values, lines 625-674.  The loops take the next lower (higher) mass while the value is missing and there is one; [n] bounds their number. *)
Fixpoint seek_low (n : nat) (grid : list run) (key : string) (m : Q) : result (Q * option Q) :=
  rbind (filed m grid) (fun r =>
  match r_final r key, n with
  | Some v, _ => Ok (m, Some v)
  | None, O => Raise (OtherError "does not end")
  | None, S n' => match below m grid with [] => Ok (m, None) | _ => rbind (np_max (below m grid)) (seek_low n' grid key) end
  end).
Fixpoint seek_high (n : nat) (grid : list run) (key : string) (m : Q) : result (Q * option Q) :=
  rbind (filed m grid) (fun r =>
  match r_final r key, n with
  | Some v, _ => Ok (m, Some v)
  | None, O => Raise (OtherError "does not end")
  | None, S n' => match above m grid with [] => Ok (m, None) | _ => rbind (np_min (above m grid)) (seek_high n' grid key) end
  end).
Definition get_final_values (grid : list run) (key : string) (M : Q) : result (option Q) :=
  if in_grid M grid then rbind (filed M grid) (fun r => Ok (r_final r key))
  else
    rbind (np_max (below M grid)) (fun low0 => rbind (np_min (above M grid)) (fun high0 =>
    rbind (seek_low (S (length grid)) grid key low0) (fun '(low, vl) =>
    rbind (seek_high (S (length grid)) grid key high0) (fun '(high, vh) =>
    let w := ((M - low) / (high - low))%Q in
    match vl, vh with
    | Some a, Some b => if Qeq_bool w 0 || Qeq_bool (b - a) 0 then Ok (Some a) else Ok (Some (a + w * (b - a)))%Q
    | _, _ => Ok None                                               (* weight is not 0, and NaN is not equal to 0 *)
    end)))).

(** get_final_state, lines 676-708 *)
Definition get_final_state (grid : list run) (key : string) (M : Q) : result string :=
  if in_grid M grid then rbind (filed M grid) (fun r => Ok (r_state r key))
  else
    rbind (np_max (below M grid)) (fun low => rbind (np_min (above M grid)) (fun high =>
    rbind (filed low grid) (fun rl => rbind (filed high grid) (fun rh =>
    if qlt M (low + (high - low) / 2) then Ok (r_state rl key) else Ok (r_state rh key))))).

(** get_profile, lines 710-758: the column, and the run whose final profile is returned with it *)
Definition relative (r : run) : list Q := map (fun m => (m / hd 0 (r_profile r "mass"))%Q) (r_profile r "mass").
Fixpoint call_all (f : interp) (l : list Q) : result (list Q) :=
  match l with [] => Ok [] | x :: l' => rbind (call f x) (fun y => rbind (call_all f l') (fun ys => Ok (y :: ys))) end.
Definition get_profile (grid : list run) (key : string) (M : Q) : result (list Q * run) :=
  if in_grid M grid then rbind (filed M grid) (fun r => Ok (r_profile r key, r))
  else
    rbind (np_max (below M grid)) (fun low => rbind (np_min (above M grid)) (fun high =>
    rbind (filed low grid) (fun rl => rbind (filed high grid) (fun rh =>
    let w := ((M - low) / (high - low))%Q in
    let cl := relative rl in let ch := relative rh in
    match rev cl, rev ch with
    | zl :: _, zh :: _ =>
        if qlt zl zh
        then rbind (construct "linear" cl (r_profile rl key) NoFill None None) (fun f =>
             rbind (call_all f ch) (fun kl => Ok (mix w kl (r_profile rh key), rh)))
        else rbind (construct "linear" ch (r_profile rh key) NoFill None None) (fun f =>
             rbind (call_all f cl) (fun kh => Ok (mix w (r_profile rl key) kh, rl)))
    | _, _ => Raise IndexError
    end)))).
