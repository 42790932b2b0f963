(** CEE_parameters_from_core_abundance_thresholds, posydon/utils/common_functions.py:1833-2013: cores and lambdas of a star for several definitions
    of the boundary of its core, to be used in a common envelope.  A profile that is no numpy array counts as none; messages are left out. *)
From Coq Require Import Reals String Bool List ZArith.
From Verif Require Import PyBase PyStr EnvelopeModel.
Import ListNotations.
Open Scope string_scope.
Open Scope R_scope.
Open Scope list_scope.

(** For each definition: mass and radius of the core, lambda (None: NaN) *)
Record core_CE := Core { ce_mass : option R; ce_radius : option R; ce_lambda : option R }.
Record cee_parameters := CEE { cent_1 : core_CE; cent_10 : core_CE; cent_30 : core_CE; pure_He_10 : core_CE }.
Definition unknown_core : core_CE := Core None None None.
(** Lines 1896-1920: the boundary is found first and then handed over *)
Definition one_core (p : profile) (state : string) (fraction : R) (CO_core : bool) : result core_CE :=
  rbind (column (p_mass p)) (fun mass =>
  rbind (calculate_core_boundary mass state p None (Some fraction) CO_core) (fun ind =>
  rbind (calculate_lambda_from_profile p state DEFAULT_CE_OPTION_FOR_LAMBDA fraction (Some ind) 1 0.001 CO_core) (fun r =>
  Ok (Core (Some (core_mass r)) (Some (core_radius r)) (lambda r))))).
Definition CEE_parameters (mass log_R : R) (state : string) (prof : option profile) : result cee_parameters :=
  match prof with
  | Some p =>
      rbind (column (p_mass p)) (fun _ =>
      if py_in "H-rich" state then
        rbind (one_core p state 0.01 false) (fun a =>
        rbind (one_core p state 0.1 false) (fun b =>
        rbind (one_core p state 0.3 false) (fun c =>
        rbind (one_core p state 0.1 true) (fun d => Ok (CEE a b c d)))))
      else if py_in "stripped_He" state then
        rbind (one_core p state 0.1 false) (fun d =>
        let whole := Core (Some mass) (Some (Rpower 10 log_R)) None in Ok (CEE whole whole whole d))
      else Ok (CEE unknown_core unknown_core unknown_core unknown_core))
  | None => Ok (CEE unknown_core unknown_core unknown_core unknown_core)
  end.
