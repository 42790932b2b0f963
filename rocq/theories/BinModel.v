(** Bins of metallicity and redshift, posydon/popsyn/synthetic_population.py:2348-2351,
    2470-2483, 2858-2902 and posydon/popsyn/rate_calculation.py:153-211.  Exact real and
    rational arithmetic. *)
From Coq Require Import Reals List QArith Qround Lia.
From Verif Require Import PyBase.
Import ListNotations.
Open Scope nat_scope.
Open Scope list_scope.

(** ** Metallicity *)
Definition log10 (x : R) : R := (ln x / ln 10)%R.
Definition pow10 (x : R) : R := Rpower 10 x.

(** The parameter dlogZ as given, and as read back from the file: a list becomes a column of
    the table of parameters, so that a list of one number comes back as a number and a longer
    one as its extremes. *)
Inductive dlogz := NoRange | Number (w : R) | Numbers (l : list R).
Inductive width := Free | Width (w : R) | Between (a b : R).
Definition rmin (l : list R) (x : R) : R := fold_left Rmin l x.
Definition rmax (l : list R) (x : R) : R := fold_left Rmax l x.
Definition read_back (d : dlogz) : result width :=
  match d with
  | NoRange => Ok Free
  | Number w => Ok (Width w)
  | Numbers [] => Raise IndexError
  | Numbers [w] => Ok (Width w)
  | Numbers (x :: l) => Ok (Between (rmin l x) (rmax l x))
  end.

(** np.sort(self.metallicities) *)
Fixpoint insert_r (x : R) (l : list R) : list R :=
  match l with [] => [x] | y :: r => if Rle_dec x y then x :: l else y :: insert_r x r end.
Definition centers (mets : list R) : list R := fold_right insert_r [] mets.

(** edges_metallicity_bins: bin_met[i] for the logarithms [l]. *)
Definition log_edge (l : list R) (i : nat) : R :=
  let n := length l in
  if i =? 0 then (nth 0 l 0 - (nth 1 l 0 - nth 0 l 0) / 2)%R
  else if i =? n then (nth (n - 1) l 0 + (nth (n - 1) l 0 - nth (n - 2) l 0) / 2)%R
  else (nth (i - 1) l 0 + (nth i l 0 - nth (i - 1) l 0) / 2)%R.
Definition log_edges (w : width) (l : list R) : list R :=
  match l with
  | [] => [0%R]
  | [x] => match w with
           | Free => [(-9)%R; 0%R]
           | Width d => [(x - d / 2)%R; (x + d / 2)%R]
           | Between a b => [a; b]
           end
  | _ => map (log_edge l) (seq 0 (length l + 1))
  end.
Definition edges (w : width) (mets : list R) : list R := map pow10 (log_edges w (map log10 (centers mets))).

(** ** Redshift *)
Section Redshift.
  (** z_at_value(cosmology.age, t) for a positive time; it fails for other times. *)
  Variable zat : Q -> Q.
  Variable CosmologyError : exn.
  Definition z_at (t : Q) : result Q := if Qlt_le_dec 0 t then Ok (zat t) else Raise CosmologyError.
  Fixpoint z_all (ts : list Q) : result (list Q) :=
    match ts with [] => Ok [] | t :: r => rbind (z_at t) (fun z => rbind (z_all r) (fun zs => Ok (z :: zs))) end.

  (** [age]: age of the Universe today and [dt] the time step, in the same unit. *)
  Definition n_bins (age dt : Q) : nat := Z.to_nat (Qfloor (age / dt)).
  (** t_birth_bin, by repeated subtraction *)
  Fixpoint steps_back (age dt : Q) (k : nat) : Q := match k with 0 => age | S j => (steps_back age dt j - dt)%Q end.
  Definition redshift_edges (age dt : Q) : result (list Q) :=
    rbind (z_all (map (fun i => steps_back age dt (S i)) (seq 0 (n_bins age dt)))) (fun zs =>
    Ok ([0%Q] ++ zs ++ [100%Q])).
  Definition redshift_centers (age dt : Q) : result (list Q) :=
    z_all (map (fun i => steps_back age dt i - dt / 2)%Q (seq 0 (n_bins age dt + 1))).
End Redshift.
