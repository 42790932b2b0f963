(** Weights of the models of a simulation for another population: posydon/popsyn/norm_pop.py.

    Real arithmetic; [None] is NaN.  Initial primary masses, the lower limit of the primary masses and periods are
    positive, an unrecognised mass function has different limits (otherwise numpy's infinities would appear). *)
From Coq Require Import String List Bool Reals.
From Coquelicot Require Import Coquelicot.
From Verif Require Import PyBase OrbitModel DistModel.
Import ListNotations.
Open Scope string_scope.
Open Scope list_scope.
Open Scope R_scope.

(** The dictionaries of parameters, as far as norm_pop.py reads them.  [IOther] is a name that IMFs.py does not have. *)
Inductive imf_scheme :=
| ISalpeter (alpha : R) | IKroupa1993 (alpha : R) | IKroupa2001 (a1 a2 a3 b1 b2 : R) | IChabrier2003 (c : chabrier) | IOther.
Inductive ratio_scheme := RFlat | RPower (slope : R) | ROther.
Inductive orbit_scheme :=
| OSana (lo hi : R) | OPower (slope lo hi : R) | OOtherPeriod | OLogUniform (lo hi : R) | OOtherSeparation | OOther.
Record kwargs := Kwargs {
  k_imf : imf_scheme; k_m1_min : R; k_m1_max : R;
  k_ratio : ratio_scheme; k_m2_min : R; k_m2_max : R; k_q_min : option R; k_q_max : option R;
  k_fb_const : bool; k_fb : R; k_orbit : orbit_scheme }.

(** norm_pop.py:24-69 *)
Definition get_IMF_pdf (k : kwargs) : result (R -> R) :=
  match k_imf k with
  | ISalpeter alpha => Salpeter alpha (k_m1_min k) (k_m1_max k)
  | IKroupa1993 alpha => Kroupa1993 alpha (k_m1_min k) (k_m1_max k)
  | IKroupa2001 a1 a2 a3 b1 b2 => Kroupa2001 (Kroupa a1 a2 a3 b1 b2 (k_m1_min k)) (k_m1_max k)
  | IChabrier2003 c => Chabrier2003 c (k_m1_min k) (k_m1_max k)
  | IOther => Ok (fun _ => 1 / (k_m1_max k - k_m1_min k))
  end.

(** norm_pop.py:71-137; comparisons with NaN are false *)
Definition on_number (f : R -> R) (q : fl) : R := match q with Some x => f x | None => 0 end.
Definition get_mass_ratio_pdf (k : kwargs) : result (fl -> R -> R) :=
  match k_ratio k, k_q_min k, k_q_max k with
  | RFlat, None, None =>
      Ok (fun q m1 =>
        let minimum := Rmax (k_m2_min k / m1) 0 in
        let maximum := Rmin (k_m2_max k / m1) 1 in
        on_number (fun q => if rltb minimum q && rleb q maximum then 1 / (maximum - minimum) else 0) q)
  | RFlat, Some lo, Some hi => rbind (FlatMassRatio lo hi) (fun f => Ok (fun q _ => on_number f q))
  | RFlat, _, _ => Raise KeyError
  | RPower slope, lo, hi =>
      let lo := match lo with Some x => x | None => 0.05 end in
      let hi := match hi with Some x => x | None => 1 end in
      rbind (PowerLawMassRatio slope lo hi) (fun f => Ok (fun q _ => on_number f q))
  | ROther, _, _ => rbind (FlatMassRatio 0 1) (fun f => Ok (fun q _ => on_number f q))
  end.

(** norm_pop.py:139-165 *)
Definition get_binary_fraction_pdf (k : kwargs) : result (bool -> R) :=
  if k_fb_const k then Ok (fun binary : bool => if binary then k_fb k else 1 - k_fb k) else Raise ValueError.

(** norm_pop.py:167-218 *)
Definition get_period_pdf (k : kwargs) : result (fl -> R -> fl -> result fl) :=
  match k_orbit k with
  | OSana lo hi =>
      rbind (Sana12Period lo hi) (fun pdf => Ok (fun P m1 _ => match P with Some p => pdf p m1 | None => Ok (Some 0) end))
  | OPower slope lo hi =>
      rbind (PowerLawPeriod slope lo hi) (fun pdf => Ok (fun P _ _ => Ok (Some (on_number pdf P))))
  | OLogUniform lo hi =>
      rbind (LogUniform lo hi) (fun pdf => Ok (fun P m1 q =>
        let a := lift2 (fun p q => orbital_separation_from_period p m1 (q * m1)) P q in
        Ok (Some (on_number pdf a * (2 / 3)))))
  | _ => Raise ValueError
  end.

(** norm_pop.py:220-269: the full density; both branches of np.where are evaluated *)
Definition get_pdf (k : kwargs) : result (R -> fl -> fl -> bool -> result fl) :=
  rbind (get_IMF_pdf k) (fun imf =>
  rbind (get_mass_ratio_pdf k) (fun ratio =>
  rbind (get_binary_fraction_pdf k) (fun fraction =>
  rbind (get_period_pdf k) (fun period =>
  Ok (fun (m1 : R) (q P : fl) (binary : bool) =>
    rbind (period P m1 q) (fun p =>
    Ok (if binary then lift1 (fun p => fraction binary * imf m1 * ratio q m1 * p) p
        else Some (fraction binary * imf m1)))))))).
(** the same with mass_pdf=True; the four functions are built here too *)
Definition get_mass_pdf (k : kwargs) : result (R -> R -> bool -> R) :=
  rbind (get_IMF_pdf k) (fun imf =>
  rbind (get_mass_ratio_pdf k) (fun ratio =>
  rbind (get_binary_fraction_pdf k) (fun fraction =>
  rbind (get_period_pdf k) (fun _ =>
  Ok (fun (m1 q : R) (binary : bool) =>
    if binary then fraction binary * imf m1 * ratio (Some q) m1 else fraction binary * imf m1))))).

(** An integral over nothing is 0. *)
Definition quad_from (f : R -> R) (a b : R) : R := if reqb a b then 0 else quad f a b.
(** norm_pop.py:271-319 *)
Definition get_mean_mass (k : kwargs) : result R :=
  rbind (get_mass_pdf k) (fun pdf =>
  let q_min := match k_q_min k with Some x => x | None => Rmax (k_m2_min k / k_m1_min k) 0 end in
  let q_max := match k_q_max k with Some x => x | None => Rmin (k_m2_max k / k_m1_max k) 1 end in
  if rltb q_max q_min then Raise ValueError
  else
    let I_bin := quad_from (fun m => quad_from (fun q => (m + m * q) * pdf m q true) q_min q_max) (k_m1_min k) (k_m1_max k) in
    let I_single := quad_from (fun m => m * pdf m 0 false) (k_m1_min k) (k_m1_max k) in
    Ok (I_bin + I_single)).

(** A row of pop_data: S1_mass_i, S2_mass_i, orbital_period_i and state_i <> 'initially_single_star' *)
Record model := Model { m_s1 : R; m_s2 : fl; m_period : fl; m_binary : bool }.
Fixpoint all_ok {A} (l : list (result A)) : result (list A) :=
  match l with
  | [] => Ok []
  | r :: l => rbind r (fun x => rbind (all_ok l) (fun xs => Ok (x :: xs)))
  end.
Definition pdf_of (pdf : R -> fl -> fl -> bool -> result fl) (x : model) : result fl :=
  pdf (m_s1 x) (lift1 (fun s => s / m_s1 x) (m_s2 x)) (m_period x) (m_binary x).
(** norm_pop.py:417-420: NaN and infinite weights become 0 *)
Definition ratio_weight (factor : R) (pop sim : fl) : R :=
  match pop, sim with
  | Some p, Some s => if reqb s 0 then 0 else p / s * factor
  | _, _ => 0
  end.
(** norm_pop.py:321-420 *)
Definition calculate_model_weights (data : list model) (M_sim : R) (sim pop : kwargs) : result (list R) :=
  if reqb (k_fb sim) 1 && reqb (k_fb pop) 0 then Raise ValueError
  else if reqb (k_fb sim) 0 && reqb (k_fb pop) 1 then Raise ValueError
  else
    rbind (get_pdf sim) (fun PDF_sim =>
    rbind (get_pdf pop) (fun PDF_pop =>
    rbind (get_mean_mass sim) (fun mean_sim =>
    rbind (get_mean_mass pop) (fun mean_pop =>
    if reqb M_sim 0 || reqb mean_pop 0 then Raise (OtherError "ZeroDivisionError")
    else
      let factor := 1 / M_sim * (mean_sim / mean_pop) in
      rbind (all_ok (map (pdf_of PDF_pop) data)) (fun weight_pop =>
      rbind (all_ok (map (pdf_of PDF_sim) data)) (fun weight_sim =>
      Ok (map (fun ps => ratio_weight factor (fst ps) (snd ps)) (combine weight_pop weight_sim)))))))).
