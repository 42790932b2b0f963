(** The gravitational mass of a compact object and the kicks that depend on ejected masses
    (posydon/binary_evol/SN/step_SN.py), over the real numbers. *)
From Coq Require Import Reals String Bool List.
From Verif Require Import PyBase.
Open Scope R_scope.

(** Lines 725-729 and 861-865: [loss] is max_neutrino_mass_loss. *)
Definition lattimer (m : R) : R := 20 / 3 * (sqrt (1 + 3 / 10 * m) - 1).
Definition m_grav (loss m : R) : R :=
  if Rlt_dec loss (m - lattimer m) then m - loss else lattimer m.
(** Lines 735-737: the mass lost to neutrinos that is given to do_core_collapse_BH. *)
Definition delta_M (loss m : R) : R :=
  let d := m - m_grav loss m in if Rlt_dec loss d then loss else d.
(** Line 2160: the baryonic mass of a neutron star. *)
Definition M_rembar (M_NS : R) : R := ((3 * M_NS / 20 + 1) ^ 2 - 1) / (3 / 10).

(** What the kick routines read of a star: state, mass, f_fb, mass_history[-1] and co_core_mass_history[-1]. *)
Record kstar := KStar { k_state : string; k_mass : R; k_f_fb : R; k_last_mass : R; k_last_co : R }.
Open Scope string_scope.
(** _get_kick_velocity, lines 2118-2176.  The draws from the Maxwellian and the log-normal distribution (sigma, and the scale) are parameters;
    sigma is never None here (line 2107).  math.exp is Coq's exp. *)
Definition kick_velocity (maxwell : R -> R) (lognorm : R -> R -> R) (prescription : string) (s : kstar) (sigma : R) (mean : option R) : result R :=
  if String.eqb prescription "maxwellian" then Ok (maxwell sigma)
  else if String.eqb prescription "log_normal" then Ok (lognorm sigma (match mean with Some m => m | None => exp (56 / 10) end))
  else if String.eqb prescription "asym_ej" then
    let M_NS := k_mass s in let M_ej := Rabs (k_last_mass s - M_rembar M_NS) in
    Ok (211 * sqrt (1 / 10 * (1 / 10) * 1) * (1 / 100 / (1 / 10)) * (M_ej / (1 / 10)) * / (M_NS / (3 / 2)))%R
  else if String.eqb prescription "linear" then Ok (115 * ((k_last_co s - k_mass s) / k_mass s) + 15)%R
  else Raise ValueError.
(** _get_kick_normalisation, lines 2178-2215. *)
Definition kick_normalisation (normalisation : string) (s : kstar) : result R :=
  if String.eqb normalisation "one_minus_fallback" then Ok (1 - k_f_fb s)%R
  else if String.eqb normalisation "one_over_mass" then Ok (if String.eqb (k_state s) "BH" then (14 / 10 / k_mass s)%R else 1%R)
  else if String.eqb normalisation "NS_one_minus_fallback_BH_one" then Ok (if String.eqb (k_state s) "BH" then 1%R else (1 - k_f_fb s)%R)
  else if String.eqb normalisation "one" then Ok 1%R
  else if String.eqb normalisation "zero" then Ok 0%R
  else Raise ValueError.
(** generate_kick, lines 2059-2116. *)
Definition generate_kick maxwell lognorm (normalisation prescription : string) (s : kstar) (sigma mean : option R) : result R :=
  match sigma with
  | None => Ok 0%R
  | Some g => rbind (kick_normalisation normalisation s) (fun n => rbind (kick_velocity maxwell lognorm prescription s g mean) (fun v => Ok (n * v)%R))
  end.
(** Lines 283-291 of __init__: kick_normalisation and kick_prescription after the backward compatibility. *)
Definition kick_options (normalisation prescription : string) : string * string :=
  if (String.eqb normalisation "asym_ej" || String.eqb normalisation "linear")%bool then ("one", normalisation) else (normalisation, prescription).
