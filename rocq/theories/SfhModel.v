(** Star-formation histories, posydon/popsyn/star_formation_history.py: limits, the
    distribution over metallicity bins, tabulated distributions, choice of the model.
    Metallicities and fractions are exact rationals. *)
From Coq Require Import String List QArith Bool.
From Verif Require Import PyBase InterpModel.
Import ListNotations.
Open Scope string_scope.
Open Scope nat_scope.
Open Scope list_scope.

(** SFHBase.__init__, lines 67-84. *)
Definition check_limits (zmin zmax : option Q) : result unit :=
  rbind (match zmax with
         | Some z => if qlt 1 z then Raise ValueError else if qlt z 0 then Raise ValueError else Ok tt
         | None => Ok tt
         end) (fun _ =>
  rbind (match zmin with
         | Some z => if qlt z 0 then Raise ValueError else if qlt 1 z then Raise ValueError else Ok tt
         | None => Ok tt
         end) (fun _ =>
  match zmin, zmax with
  | Some a, Some b => if Qle_bool b a then Raise ValueError else Ok tt
  | _, _ => Ok tt
  end)).

(** l[i] = v, l[i:] = 0 and l[:i] = 0 *)
Fixpoint set_at (l : list Q) (i : nat) (v : Q) : list Q :=
  match l, i with
  | [], _ => []
  | _ :: r, 0 => v :: r
  | x :: r, S k => x :: set_at r k v
  end.
Definition zero_from (l : list Q) (i : nat) : list Q := firstn i l ++ map (fun _ => 0%Q) (skipn i l).
Definition zero_before (l : list Q) (i : nat) : list Q := map (fun _ => 0%Q) (firstn i l) ++ skipn i l.

(** np.searchsorted(bins, z) for ascending bins: how many are smaller. *)
Definition searchsorted (bins : list Q) (z : Q) : nat := length (filter (fun b => qlt b z) bins).

Definition qsum (l : list Q) : Q := fold_right Qplus 0%Q l.

Section Distribute.
  (** The cumulative distribution. *)
  Variable F : Q -> Q.

  (** _distribute_cdf, lines 178-222.  [None] in the result: not a finite number.  The position
      of the last bin is [None] for -1. *)
  Definition plain (bins : list Q) : list Q :=
    map (fun i => F (nth (S i) bins 0%Q) - F (nth i bins 0%Q))%Q (seq 0 (length bins - 1)).

  (** Lines 186-199. *)
  Definition cut_above (bins : list Q) (zmax : option Q) (f : list Q) : result (list Q * option nat) :=
    let n := length bins - 1 in
    match zmax with
    | None => Ok (f, match n with 0 => None | S k => Some k end)
    | Some z =>
        match n with
        | 0 => Raise IndexError
        | S k =>
            if Qle_bool (nth n bins 0%Q) z then Ok (set_at f k (F z - F (nth k bins 0%Q))%Q, Some k)
            else match searchsorted bins z with
                 | 0 => Ok (zero_from f 0, None)
                 | S j => Ok (zero_from (set_at f j (F z - F (nth j bins 0%Q))%Q) (S j), Some j)
                 end
        end
    end.

  (** Lines 201-210. *)
  Definition cut_below (bins : list Q) (zmin : option Q) (f : list Q) : result (list Q * nat) :=
    let n := length bins - 1 in
    match zmin with
    | None => Ok (f, 0)
    | Some z =>
        match n with
        | 0 => Raise IndexError
        | S _ =>
            if Qle_bool z (nth 0 bins 0%Q) then Ok (set_at f 0 (F (nth 1 bins 0%Q) - F z)%Q, 0)
            else let j := searchsorted bins z - 1 in
                 if n <=? j then Raise IndexError
                 else Ok (set_at (zero_before f j) j (F (nth (S j) bins 0%Q) - F z)%Q, j)
        end
    end.

  Definition distribute (bins : list Q) (zmin zmax : option Q) (normalise : bool) : result (list (option Q)) :=
    if negb (rising bins) then Raise ValueError
    else
      rbind (cut_above bins zmax (plain bins)) (fun r =>
      rbind (cut_below bins zmin (fst r)) (fun s =>
      let f := match zmin, zmax, snd r with
               | Some a, Some b, Some last =>
                   if snd s =? last
                   then zero_before (zero_from (set_at (fst s) last (F b - F a)%Q) (S last)) last
                   else fst s
               | _, _, _ => fst s
               end in
      Ok (if normalise
          then map (fun v => if Qeq_bool (qsum f) 0 then None else Some (v / qsum f)%Q) f
          else map Some f))).
End Distribute.

(** ** Tabulated distributions: IllustrisTNG.fSFR and Chruslinska21.fSFR, lines 649-688 and 818-863 *)

(** np.cumsum *)
Fixpoint cumsum (acc : Q) (l : list Q) : list Q :=
  match l with [] => [] | x :: r => (acc + x)%Q :: cumsum (acc + x)%Q r end.

(** np.where(redshifts <= z)[0][-1] and [0][0] *)
Fixpoint positions (i : nat) (redshifts : list Q) (z : Q) : list nat :=
  match redshifts with [] => [] | r :: rs => (if Qle_bool r z then [i] else []) ++ positions (S i) rs z end.
Definition tng_row (redshifts : list Q) (z : Q) : result nat :=
  match rev (positions 0 redshifts z) with [] => Raise IndexError | i :: _ => Ok i end.
(** With the last row (index -1) below the smallest redshift. *)
Definition chruslinska_row (redshifts : list Q) (z : Q) : result nat :=
  match positions 0 redshifts z with
  | i :: _ => Ok i
  | [] => match redshifts with [] => Raise ValueError | _ => Ok (length redshifts - 1) end
  end.

Section Table.
  (** np.log10; the last point of the table is log10(1) = 0. *)
  Variable lg : Q -> Q.
  (** One row of fSFR: [masses] is the row of the table, [mets] the metallicities of its columns. *)
  Definition tabulated (mets masses : list Q) : result interp :=
    construct "linear" (map lg mets ++ [0%Q]) (map (fun c => c / qsum masses)%Q (cumsum 0 masses) ++ [1%Q]) NoFill None None.
  (** The interpolator never raises inside _distribute_cdf once it is built. *)
  Definition table_cdf (f : interp) (x : Q) : Q := match call f (lg x) with Ok v => v | Raise _ => 0%Q end.
  Definition table_row (mets masses bins : list Q) (zmin zmax : option Q) (normalise : bool) : result (list (option Q)) :=
    if Qeq_bool (qsum masses) 0 then Ok (map (fun _ => Some 0%Q) (seq 0 (length bins - 1)))
    else rbind (tabulated mets masses) (fun f => distribute (table_cdf f) bins zmin zmax normalise).
End Table.

(** ** Choice of the model, lines 282-285, 727-732, 980-984, 1011-1039 *)
(** Parameters: names and whether present; [valid_*] for the values of Z_solar_scaling (774-791)
    and sub_model of Zavala (999-1004).  Reading data files is taken to succeed. *)
Definition model_required (sfr : string) : option (list string) :=
  if String.eqb sfr "Madau+Fragos17" || String.eqb sfr "Madau+Dickinson14" || String.eqb sfr "Fujimoto+24"
     || String.eqb sfr "Neijssel+19" then Some ["sigma"]
  else if String.eqb sfr "IllustrisTNG" then Some []
  else if String.eqb sfr "Chruslinska+21" then Some ["sub_model"; "Z_solar_scaling"]
  else if String.eqb sfr "Zavala+21" then Some ["sub_model"; "sigma"]
  else None.
Definition parameter_values (sfr : string) (d : list (string * string)) : bool :=
  if String.eqb sfr "Chruslinska+21" then
    match dget String.eqb d "Z_solar_scaling" with
    | Some v => inb String.eqb v ["Asplund09"; "AndersGrevesse89"; "GrevesseSauval98"; "Villante14"]
    | None => false
    end
  else if String.eqb sfr "Zavala+21" then
    match dget String.eqb d "sub_model" with Some v => inb String.eqb v ["min"; "max"] | None => false end
  else true.
(** [d]: the other parameters given as text. *)
Definition get_sfh_model (d : list (string * string)) (zmin zmax : option Q) : result string :=
  match dget String.eqb d "SFR" with
  | None => Raise KeyError
  | Some sfr =>
      match model_required sfr with
      | None => Raise ValueError
      | Some names =>
          if negb (forallb (fun k => match dget String.eqb d k with Some _ => true | None => false end) names) then Raise ValueError
          else rbind (check_limits zmin zmax) (fun _ => if parameter_values sfr d then Ok sfr else Raise ValueError)
      end
  end.
