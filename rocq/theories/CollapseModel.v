(** The collapse of the profile of a star: get_ejecta_element_mass_at_collapse, get_initial_BH_properties and do_core_collapse_BH of
    posydon/binary_evol/SN/profile_collapse.py, over the real numbers.

    Columns are lists from the surface to the centre, as in the profile; a profile without the needed columns is [None].  Simpson's rule of scipy is
    an input.  The helium that the shells may lose, which do_core_collapse_BH computes and does not return, and the arrays that are not returned are not
    modelled.  At a spin of exactly 1 the angular momentum of the orbit is 0 / 0 and all results NaN: the model fails there, with an error of its own. *)
From Coq Require Import Reals String List Bool.
From Verif Require Import PyBase OrbitModel InspiralModel BHModel.
Import ListNotations.
Open Scope string_scope.
Open Scope R_scope.
Open Scope list_scope.

Definition NaNSpinError : exn := OtherError "NaN".

(** Numpy *)
Fixpoint first_where {A} (f : A -> bool) (l : list A) : option nat :=
  match l with [] => None | x :: l' => if f x then Some 0%nat else option_map S (first_where f l') end.
(** np.argmax of booleans *)
Definition argmax {A} (f : A -> bool) (l : list A) : nat := match first_where f l with Some i => i | None => 0%nat end.
(** l[1:] - l[:-1] *)
Fixpoint diffs (l : list R) : list R := match l with x :: ((y :: _) as l') => (y - x) :: diffs l' | _ => [] end.
Fixpoint sum (l : list R) : R := match l with [] => 0 | x :: l' => x + sum l' end.
Definition zip_with {A B C} (f : A -> B -> C) (l : list A) (m : list B) : list C := map (fun '(x, y) => f x y) (combine l m).

(** ** get_ejecta_element_mass_at_collapse, lines 31-112 *)
Record composition := Composition { c_mass : list R; c_H : list R; c_He : list R }.
Definition get_ejecta_element_mass_at_collapse (star : option composition) (compact_object_mass : R) (verbose : bool) : result (R * R) :=
  match star with
  | None => Ok (0, 0)
  | Some p =>
      let mass := rev (c_mass p) in
      let dm := diffs mass in
      let X := rev (c_H p) in let Y := rev (c_He p) in
      match rev mass with
      | [] => Raise IndexError
      | surface :: _ =>
          if le surface compact_object_mass then Ok (0, 0)
          else
            let i := argmax (fun m => lt compact_object_mass m) mass in
            if (i <? length dm)%nat then
              let dm_e := skipn i dm in let X_e := skipn (S i) X in let Y_e := skipn (S i) Y in
              if ((length dm_e =? length X_e) && (length X_e =? length Y_e))%nat then Ok (sum (zip_with Rmult dm_e X_e), sum (zip_with Rmult dm_e Y_e))
              else Ok (0, 0)
            (* the name dm_ejected is printed but not bound, lines 109-111 *)
            else if verbose then Raise (OtherError "UnboundLocalError") else Ok (0, 0)
      end
  end.

(** ** gridutils.py:230-233, np.argmin (np.abs (array - value)) *)
Fixpoint nearest_from (v : R) (best : R) (at_ i : nat) (l : list R) : nat :=
  match l with
  | [] => at_
  | x :: l' => if Rlt_dec (Rabs (x - v)) best then nearest_from v (Rabs (x - v)) i (S i) l' else nearest_from v best at_ (S i) l'
  end.
Definition find_index_nearest_neighbour (l : list R) (v : R) : result nat :=
  match l with [] => Raise ValueError | x :: l' => Ok (nearest_from v (Rabs (x - v)) 0 1 l') end.

(** ** get_initial_BH_properties, lines 114-306 *)
Record profile := Profile { mass : list R; radius : list R; logRho : list R; omega : list R }.
Record shell := Shell { om : R; r : R; rho : R; dr : R; dm : R }.
(** Lines 214-238: the shells that are not ejected, from the centre, in cgs units, without dr and dm *)
Definition i_rem (enclosed : list R) (mass_collapsing : R) : nat :=
  match rev enclosed with
  | [] => 0
  | surface :: _ => if le (surface / Msun) mass_collapsing then length enclosed else S (argmax (fun m => lt mass_collapsing (m / Msun)) enclosed)
  end.
Fixpoint zip5 (o r rho dr dm : list R) : list shell :=
  match o, r, rho, dr, dm with o :: os, r :: rs, h :: hs, x :: xs, y :: ys => Shell o r h x y :: zip5 os rs hs xs ys | _, _, _, _, _ => [] end.
(** The hole (mass in g, spin, angular momentum) and the shells that fall onto it later *)
Record initial := Initial { M0 : R; a0 : R; J0 : R; falling : list shell }.
Definition get_initial_BH_properties (simpson : list R -> list R -> R) (star : profile) (mass_collapsing mass_central_BH neutrino_mass_loss : R) : result initial :=
  let enclosed_all := map (fun m => m * Msun) (rev (mass star)) in
  if (length enclosed_all =? 0)%nat then Raise IndexError
  else
    let i := i_rem enclosed_all mass_collapsing in
    let enclosed := firstn i enclosed_all in
    let radii := firstn i (map (fun x => x * Rsun) (rev (radius star))) in
    let density := firstn i (map (fun x => Rpower 10 x) (rev (logRho star))) in
    let frequency := firstn i (rev (omega star)) in
    rbind (find_index_nearest_neighbour enclosed (mass_central_BH * Msun)) (fun k =>
    let m_k := nth k enclosed 0 in
    let m := m_k - neutrino_mass_loss * Msun in
    let f_nu := m / m_k in
    let inner := S k in
    let integrand := map (fun '(h, (o, x)) => f_nu * h * o * x ^ 4) (combine (firstn inner density) (combine (firstn inner frequency) (firstn inner radii))) in
    let J := 2 * PI * (4 / 3) * simpson integrand (firstn inner radii) in
    Ok (Initial m (J * clight / (standard_cgrav * m ^ 2)) J
      (zip5 (skipn inner frequency) (skipn inner radii) (skipn inner density) (skipn k (diffs radii)) (skipn k (diffs enclosed))))).

(** ** do_core_collapse_BH, lines 355-710 *)
Record state := State { M : R; a : R; J : R; disk : R; radiated : R; jet : R }.
(** Lines 538-649, one shell.  [dm_disk * (1 - eff)] is added up as in line 688. *)
Definition collapse (x : shell) (s : state) : result state :=
  if Req_EM_T (a s) 1 then Raise NaNSpinError
  else
    let '(_, j_isco, eff) := compute_isco_properties (a s) (M s) in
    let j_shell := om x * r x ^ 2 in
    let temp2 := r x ^ 5 / 5 - (r x - dr x) ^ 5 / 5 in
    let '(J', M', dm_disk) :=
      if Rlt_dec j_shell j_isco then
        let J_direct := 4 * PI * (om x * rho x) * (2 / 3) * temp2 in
        (J s + J_direct, M s + dm x, 0)
      else
        let theta_disk := asin (sqrt (j_isco / (om x * r x ^ 2))) in
        let temp1 := 4 / 3 * (2 + cos theta_disk) * sin (theta_disk / 2) ^ 4 in
        let J_direct := 4 * PI * (om x * rho x) * temp1 * temp2 in
        let dm_direct := (1 - cos theta_disk) * dm x in
        let dm_disk := cos theta_disk * dm x in
        let J_disk := j_isco * dm_disk in
        (J s + J_disk + J_direct, M s + dm_disk * eff + dm_direct, dm_disk) in
    let a' := J' * clight / (standard_cgrav * M' ^ 2) in
    if Rlt_dec 1 a' then Raise ValueError
    else Ok (State M' a' J' (disk s + dm_disk * eff) (radiated s + dm_disk * (1 - eff)) (jet s + BZ_jet_power dm_disk 1 (a' ^ 2))).
Fixpoint collapse_all (l : list shell) (s : state) : result state := match l with [] => Ok s | x :: l' => rbind (collapse x s) (collapse_all l') end.

(** In solar masses; None is NaN *)
Record remnant := Remnant { M_BH_total : R; a_BH_total : option R; m_disk_accreted : option R; m_disk_radiated : option R; BZ_jet_power_total : option R }.
Definition do_core_collapse_BH (simpson : list R -> list R -> R) (star : option profile) (mass_collapsing mass_central_BH : R) (neutrino_mass_loss : option R)
  (max_neutrino_mass_loss : R) : result remnant :=
  match neutrino_mass_loss with
  | None => Raise TypeError                          (* None < 0., line 163 *)
  | Some nu =>
      if Rlt_dec nu 0 then Raise ValueError
      else if Rlt_dec max_neutrino_mass_loss nu then Raise ValueError
      else
        match star with
        | None => Ok (Remnant ((mass_central_BH - nu) / Msun) None None None None)      (* lines 184-187 and 464 *)
        | Some p =>
            rbind (get_initial_BH_properties simpson p mass_collapsing mass_central_BH nu) (fun i =>
            match falling i with
            | [] => Ok (Remnant (M0 i / Msun) (Some (a0 i)) None None None)
            | _ =>
                let capped := if Rlt_dec 0.99 (a0 i) then true else false in
                let a1 := if capped then 0.99 else a0 i in
                let J1 := if capped then a1 * standard_cgrav * M0 i ^ 2 / clight else J0 i in
                rbind (collapse_all (falling i) (State (M0 i) a1 J1 0 0 0)) (fun s =>
                Ok (Remnant (M s / Msun) (Some (a s)) (Some (disk s / Msun)) (Some (radiated s / Msun)) (Some (jet s))))
            end)
        end
  end.
