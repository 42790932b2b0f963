(** Accretion onto compact objects: eddington_limit, beaming and bondi_hoyle of posydon/utils/common_functions.py, over the real numbers.

    Rates and masses are numbers (NaN only for the hydrogen at the surface, where it is handled); divisions by zero, where numpy gives
    infinities, are excluded by the hypotheses of the theorems. *)
From Coq Require Import Reals String Bool List.
From Verif Require Import PyBase OrbitModel InspiralModel.
Import ListNotations.
Open Scope string_scope.
Open Scope R_scope.
Open Scope list_scope.

Definition NameError := OtherError "UnboundLocalError".

(** A star with the histories that the functions read, each with the present value at the end: [*history, value].  A state may be None. *)
Record star := Star { states : list (option string); state : option string; masses : list R; h1s : list (option R) }.
(** numpy's x[idx] for an index or a slice, given as the list of positions it selects *)
Definition at_ {A} (l : list A) (i : nat) : result A := match nth_error l i with Some x => Ok x | None => Raise IndexError end.
Fixpoint each {A B} (f : A -> result B) (l : list A) : result (list B) :=
  match l with [] => Ok [] | a :: l => rbind (f a) (fun b => rbind (each f l) (fun bs => Ok (b :: bs))) end.

(** ** eddington_limit, lines 394-455 *)
Definition is_CO (s : option string) : bool := match s with Some t => existsb (String.eqb t) ["NS"; "BH"; "WD"] | None => false end.
(** Lines 409-416: (accretor, donor) *)
Definition accretor_donor (star_1 star_2 : star) : result (star * star) :=
  if is_CO (state star_1) then Ok (star_1, star_2)
  else if is_CO (state star_2) then Ok (star_2, star_1)
  else Raise ValueError.
(** Lines 429-437: state_history does not contain the present state *)
Definition seen (t : string) (h : list (option string)) : bool := existsb (fun s => match s with Some u => String.eqb u t | None => false end) h.
Definition known_state (h : list (option string)) (s : option string) : result string :=
  match s with
  | Some t => Ok t
  | None => if seen "NS" h then Ok "NS" else if seen "BH" h then Ok "BH" else if seen "WD" h then Ok "WD" else Raise ValueError
  end.
(** Lines 441-450: [m] is in grams, and that is what CO_radius gets *)
Definition efficiency (t : string) (m : R) : result R :=
  if String.eqb t "BH" then
    let r_isco := 6 in
    let m_ini := m * sqrt (r_isco / 6) in
    Ok (1 - sqrt (1 - (Rmin m (sqrt 6 * m_ini) / (3 * m_ini)) ^ 2))
  else rbind (CO_radius m t) (fun radius => Ok (standard_cgrav * m / (radius * Rsun * clight ^ 2))).
Definition fill (h1 : option R) : R := match h1 with Some x => x | None => 0.7155 end.
(** Lines 428-455, one turn of the loop: (rate in Msun / yr, eta) *)
Definition edd_one (h : list (option string)) (s : option string) (mass : R) (h1 : option R) : result (R * R) :=
  let m := mass * Msun in
  rbind (known_state h s) (fun t =>
  rbind (efficiency t m) (fun eta =>
    Ok (4 * PI * standard_cgrav * m / (0.2 * (1 + fill h1) * eta * clight) / (Msun / secyer), eta))).
(** All turns run; what the last one computed is returned, and if there is none the name is unbound. *)
Definition eddington_limit (star_1 star_2 : star) (idx : list nat) : result (R * R) :=
  rbind (accretor_donor star_1 star_2) (fun ad =>
  let (accretor, donor) := (ad : star * star) in
  rbind (each (fun i =>
    rbind (at_ (states accretor ++ [state accretor]) i) (fun s =>
    rbind (at_ (masses accretor) i) (fun m =>
    rbind (at_ (h1s donor) i) (fun x => edd_one (states accretor) s m x)))) idx) (fun l =>
  match rev l with r :: _ => Ok r | [] => Raise NameError end)).

(** ** beaming, lines 458-506: [lg] is lg_mtransfer_rate, None if None or NaN; the result is (rate, b), the rate None if NaN *)
Definition beaming (mdot_edd : R) (lg : option R) : option R * R :=
  match lg with
  | None => (None, 1)
  | Some lg =>
      let rlo_mdot := Rpower 10 lg in
      if Rle_dec mdot_edd rlo_mdot then
        let b := if Rlt_dec (8.5 * mdot_edd) rlo_mdot then 73 / (rlo_mdot / mdot_edd) ^ 2 else 1 in
        (Some (mdot_edd * (1 + ln (rlo_mdot / mdot_edd)) / b), b)
      else (Some rlo_mdot, 1)
  end.

(** ** bondi_hoyle, lines 509-669 *)
(** The values at one index: of the binary (sep, ecc), the accretor (m_acc) and the donor *)
Record row := Row { sep : R; ecc : R; m_acc : R; m : R; lg_mdot : R; he_core_radius : option R; log_R : R; h1 : option R; log_L : R }.
Definition G_SI : R := standard_cgrav * 1e-3.
Definition Msun_SI : R := Msun * 1e-3.
Definition Rsun_SI : R := Rsun * 1e-2.
Definition Lsun : R := 3.8418e33.
Definition boltz_sigma : R := 5.670373e-5.
Definition star_radius (w : row) : R := Rpower 10 (log_R w).
(** Lines 130-134 *)
Definition stefan_boltzmann_law (L radius : R) : R := Rpower (L * Lsun / (4 * PI * (radius * Rsun) ^ 2) / boltz_sigma) (1 / 4).
Definition Teff (w : row) : R := stefan_boltzmann_law (Rpower 10 (log_L w)) (star_radius w).
Definition h1_le (w : row) (x : R) : bool := match h1 w with Some v => if Rle_dec v x then true else false | None => false end.
Definition h1_lt (w : row) (x : R) : bool := match h1 w with Some v => if Rlt_dec v x then true else false | None => false end.
Definition lt (x y : R) : bool := if Rlt_dec x y then true else false.
Definition le (x y : R) : bool := if Rle_dec x y then true else false.
(** Truth value of a float: NaN is true *)
Definition truth (x : option R) : bool := match x with Some v => if Req_EM_T v 0 then false else true | None => true end.
(** Lines 587-605: assignments to masked elements one after the other; [junk] is what numpy.empty_like left in the memory *)
Definition set_if (c : bool) (v old : R) : R := if c then v else old.
Definition hurley_beta (junk : R) (w : row) : R :=
  let b := set_if (truth (he_core_radius w) && lt 900 (star_radius w)) 0.125 junk in
  let b := set_if (lt 120 (m w)) 7 b in
  let b := set_if (lt (m w) 1.4) 0.5 b in
  let b := set_if (le 1.4 (m w) && le (m w) 120) (0.5 + (m w - 1.4) / (120 - 1.4) * 6.5) b in
  let b := set_if (h1_le w 0.01 && lt 120 (m w)) 7 b in
  let b := set_if (h1_le w 0.01 && lt (m w) 10) 0.125 b in
  set_if (le 10 (m w) && le (m w) 120 && h1_le w 0.01) (0.125 + (m w - 10) / (120 - 10) * 6.875) b.
Definition kudritzki (w : row) : R := if Rle_dec 21000 (Teff w) then 2.65 else if Rle_dec (Teff w) 10000 then 1 else 1.4.
(** Lines 583-616: f_m for all rows; the loop over Teff leaves a single number, that of the last row. *)
Definition factors (scheme : string) (junk : R) (rows : list row) : result (list R) :=
  if String.eqb scheme "Hurley+2002" then Ok (map (fun w => sqrt (hurley_beta junk w)) rows)
  else if String.eqb scheme "Kudritzki+2000" then
    match rev rows with w :: _ => Ok (map (fun _ => kudritzki w) rows) | [] => Raise NameError end
  else Raise NameError.
(** Lines 618-630 *)
Definition v_esc (w : row) : R := sqrt (2 * G_SI * m w * Msun_SI / (star_radius w * Rsun_SI)).
Definition v_wind (f : R) (w : row) : R :=
  if h1_lt w 0.4 && lt 1.0e4 (Teff w) then
    let slope := if Rle_dec (-5.25) (lg_mdot w) then (3.7 - 3.25) / (- 2.5 + 5.25) else (3.25 - 3.75) / (- 5.25 + 7.25) in
    Rpower 10 (slope * lg_mdot w + 3.25 + 5.25 * slope) * 1000
  else v_esc w * f.
(** Lines 632-634: the mean anomaly, from a random number in [0, 1) *)
Definition mean_motion (w : row) : R := sqrt (G_SI * (m_acc w + m w) * Msun_SI / (star_radius w * Rsun_SI) ^ 3).
Definition mean_anomaly (random : R) (w : row) : R := mean_motion w * (random * 2 * PI / mean_motion w).
(** Lines 638-649: E is the root of x - e sin x - (mean anomaly) that scipy's newton finds, an input here *)
Definition semi (w : row) : R := sep w * Rsun_SI.
Definition semi_minor (w : row) : R := semi w * sqrt (1 - ecc w ^ 2).
Definition r_vec (w : row) (E : R) : R * R := (semi w * (cos E - ecc w), semi_minor w * sin E).
Definition v_dir (w : row) (E : R) : R * R := (- semi w * sin E, semi_minor w * cos E).
Definition norm (x : R * R) : R := sqrt (fst x ^ 2 + snd x ^ 2).
Definition dot (x y : R * R) : R := fst x * fst y + snd x * snd y.
Definition k_of (w : row) (E : R) : R := dot (r_vec w E) (v_dir w E) / (norm (r_vec w E) * norm (v_dir w E)).
Definition v_orb (w : row) (E : R) : R := sqrt (G_SI * (m w + m_acc w) * Msun_SI * (2 / norm (r_vec w E) - 1 / semi w)).
Definition v_rel (w : row) (vw E : R) : R := sqrt (v_orb w E ^ 2 + vw ^ 2 + 2 * v_orb w E * vw * k_of w E).
(** Lines 652-653 *)
Definition capture (w : row) (vw E : R) : R :=
  1.5 * ((G_SI * m_acc w * Msun_SI) ^ 2 / (2 * v_rel w vw E ^ 3 * vw * norm (r_vec w E) ^ 2)) * Rpower 10 (lg_mdot w).
(** Lines 657-664; 1 / x ^ 2 for x ** (-2) *)
Definition rdisk_div_risco (w : row) (vw E : R) : R :=
  let eta := 1 / 3 in let q := m w / m_acc w in
  2 / 3 * (eta / (1 + q)) ^ 2 * (1 / (v_orb w E / (clight * 0.01)) ^ 2) * (1 / (1 + (vw / v_orb w E) ^ 2) ^ 4) * (1 / 1).
Definition accreted (disk : bool) (w : row) (vw E : R) : R :=
  if disk && le (rdisk_div_risco w vw E) 1 then Rpower 10 (- 99) else capture w vw E.
(** The whole, for the rows selected by idx with the anomalies [Es]; [mdot_edd] is what eddington_limit returns for the same idx. *)
Definition bondi_hoyle (mdot_edd : result (R * R)) (scheme : string) (disk : bool) (junk : R) (rows : list row) (Es : list R) : result (list R) :=
  rbind (factors scheme junk rows) (fun fs =>
  rbind mdot_edd (fun edd =>
    Ok (map (fun x => let '(w, f, E) := (x : row * R * R) in Rmin (accreted disk w (v_wind f w) E) (fst edd)) (combine (combine rows fs) Es)))).
