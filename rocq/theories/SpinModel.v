(** Masses and spins of merging binaries: chi_eff, effective_precession, m_chirp and mass_ratio of
    posydon/popsyn/transient_select_funcs.py:126-208.

    Real arithmetic instead of floating point; [None] is NaN, infinities are not modelled (masses are positive).
    Arrays are lists of one length; the alignment of pandas series by index is not modelled. *)
From Coq Require Import List Bool Reals.
From Verif Require Import OrbitModel.
Import ListNotations.
Open Scope R_scope.

(** transient_select_funcs.py:204-208: q[q>1.] = 1./q[q>1.] *)
Definition mass_ratio (m_1 m_2 : list fl) : list fl :=
  let q := map (fun p => lift2 Rdiv (snd p) (fst p)) (combine m_1 m_2) in
  map (fun x => match x with Some v => if Rlt_dec 1 v then Some (1 / v) else Some v | None => None end) q.

(** transient_select_funcs.py:200-202 *)
Definition m_chirp (m_1 m_2 : R) : R := Rpower (m_1 * m_2) (3 / 5) / Rpower (m_1 + m_2) (1 / 5).

(** transient_select_funcs.py:126-166: undefined spins and tilts are replaced by 0 in the caller's arrays.
    Result and the four arrays afterwards. *)
Definition fill (l : list fl) : list fl := map (fun x => match x with None => Some 0 | Some v => Some v end) l.
Definition chi_one (m_1 m_2 a_1 a_2 tilt_1 tilt_2 : fl) : fl :=
  lift2 Rdiv (lift2 Rplus (lift2 Rmult (lift2 Rmult m_1 a_1) (lift1 cos tilt_1))
                          (lift2 Rmult (lift2 Rmult m_2 a_2) (lift1 cos tilt_2)))
             (lift2 Rplus m_1 m_2).
Fixpoint chi_all (m_1 m_2 a_1 a_2 tilt_1 tilt_2 : list fl) : list fl :=
  match m_1, m_2, a_1, a_2, tilt_1, tilt_2 with
  | m :: m_1, n :: m_2, a :: a_1, b :: a_2, s :: tilt_1, t :: tilt_2 =>
      chi_one m n a b s t :: chi_all m_1 m_2 a_1 a_2 tilt_1 tilt_2
  | _, _, _, _, _, _ => []
  end.
Definition chi_eff (m_1 m_2 a_1 a_2 tilt_1 tilt_2 : list fl) : list fl * (list fl * list fl * list fl * list fl) :=
  let a_1 := fill a_1 in let a_2 := fill a_2 in let tilt_1 := fill tilt_1 in let tilt_2 := fill tilt_2 in
  (chi_all m_1 m_2 a_1 a_2 tilt_1 tilt_2, (a_1, a_2, tilt_1, tilt_2)).

(** transient_select_funcs.py:169-198, for numbers *)
Definition effective_precession (theta_1 theta_2 a1 a2 m1 m2 : R) : R :=
  let q := m2 / m1 in
  let a_1_perp := Rabs (a1 * sin theta_1) in
  let a_2_perp := q * ((4 * q + 3) / (4 + 3 * q)) * a2 * sin theta_2 in
  Rmax a_1_perp a_2_perp.
