(** The predefined supernova models (posydon/grids/SN_MODELS.py). *)
From Coq Require Import String Bool List QArith.
From Verif Require Import PyBase.
Import ListNotations.
Open Scope string_scope.
Open Scope list_scope.

(** A value of an option: text, number (a float's value), boolean, None, or any other object, which equals none of them (NaN among these). *)
Inductive value := VStr (s : string) | VNum (q : Q) | VBool (b : bool) | VNone | VOther.
(** Python's ==: booleans are the numbers 0 and 1. *)
Definition num_of (v : value) : option Q :=
  match v with VNum q => Some q | VBool true => Some 1%Q | VBool false => Some 0%Q | _ => None end.
Definition veqb (a b : value) : bool :=
  match a, b with
  | VStr s, VStr t => String.eqb s t
  | VNone, VNone => true
  | _, _ => match num_of a, num_of b with Some x, Some y => Qeq_bool x y | _, _ => false end
  end.
Definition dict := list (string * value).

(** Lines 23-39 (the two limits are 0.5 and 2.5, utils/limits_thresholds.py:80-84). *)
Definition DEFAULT_SN_MODEL : dict := [
  ("mechanism", VStr "Fryer+12-delayed");
  ("engine", VStr "");
  ("PISN", VStr "Hendriks+23");
  ("PISN_CO_shift", VNum 0);
  ("PPI_extra_mass_loss", VNum (-20));
  ("ECSN", VStr "Tauris+15");
  ("conserve_hydrogen_envelope", VBool false);
  ("conserve_hydrogen_PPI", VBool false);
  ("max_neutrino_mass_loss", VNum (1 # 2));
  ("max_NS_mass", VNum (5 # 2));
  ("use_interp_values", VBool true);
  ("use_profiles", VBool true);
  ("use_core_masses", VBool true);
  ("allow_spin_None", VBool false);
  ("approx_at_he_depletion", VBool false)].
(** Lines 43-522. *)
Definition SN_MODELS : list (string * dict) := [
  ("SN_MODEL_v2_01", [("use_interp_values", VBool false); ("use_core_masses", VBool false)]);
  ("SN_MODEL_v2_02", [("conserve_hydrogen_envelope", VBool true); ("use_interp_values", VBool false); ("use_core_masses", VBool false)]);
  ("SN_MODEL_v2_03", [("PPI_extra_mass_loss", VNum 0); ("use_interp_values", VBool false); ("use_core_masses", VBool false)]);
  ("SN_MODEL_v2_04", [("PPI_extra_mass_loss", VNum 0); ("conserve_hydrogen_envelope", VBool true); ("use_interp_values", VBool false); ("use_core_masses", VBool false)]);
  ("SN_MODEL_v2_05", [("mechanism", VStr "Fryer+12-rapid"); ("use_interp_values", VBool false); ("use_core_masses", VBool false)]);
  ("SN_MODEL_v2_06", [("mechanism", VStr "Fryer+12-rapid"); ("conserve_hydrogen_envelope", VBool true); ("use_interp_values", VBool false); ("use_core_masses", VBool false)]);
  ("SN_MODEL_v2_07", [("mechanism", VStr "Fryer+12-rapid"); ("PPI_extra_mass_loss", VNum 0); ("use_interp_values", VBool false); ("use_core_masses", VBool false)]);
  ("SN_MODEL_v2_08", [("mechanism", VStr "Fryer+12-rapid"); ("PPI_extra_mass_loss", VNum 0); ("conserve_hydrogen_envelope", VBool true); ("use_interp_values", VBool false); ("use_core_masses", VBool false)]);
  ("SN_MODEL_v2_09", [("mechanism", VStr "Sukhbold+16-engine"); ("engine", VStr "N20"); ("use_interp_values", VBool false); ("use_core_masses", VBool false)]);
  ("SN_MODEL_v2_10", [("mechanism", VStr "Sukhbold+16-engine"); ("engine", VStr "N20"); ("conserve_hydrogen_envelope", VBool true); ("use_interp_values", VBool false); ("use_core_masses", VBool false)]);
  ("SN_MODEL_v2_11", [("mechanism", VStr "Sukhbold+16-engine"); ("engine", VStr "N20"); ("PPI_extra_mass_loss", VNum 0); ("use_interp_values", VBool false); ("use_core_masses", VBool false)]);
  ("SN_MODEL_v2_12", [("mechanism", VStr "Sukhbold+16-engine"); ("engine", VStr "N20"); ("PPI_extra_mass_loss", VNum 0); ("conserve_hydrogen_envelope", VBool true); ("use_interp_values", VBool false); ("use_core_masses", VBool false)]);
  ("SN_MODEL_v2_13", [("mechanism", VStr "Patton&Sukhbold20-engine"); ("engine", VStr "N20"); ("use_interp_values", VBool false); ("use_core_masses", VBool false)]);
  ("SN_MODEL_v2_14", [("mechanism", VStr "Patton&Sukhbold20-engine"); ("engine", VStr "N20"); ("conserve_hydrogen_envelope", VBool true); ("use_interp_values", VBool false); ("use_core_masses", VBool false)]);
  ("SN_MODEL_v2_15", [("mechanism", VStr "Patton&Sukhbold20-engine"); ("engine", VStr "N20"); ("PPI_extra_mass_loss", VNum 0); ("use_interp_values", VBool false); ("use_core_masses", VBool false)]);
  ("SN_MODEL_v2_16", [("mechanism", VStr "Patton&Sukhbold20-engine"); ("engine", VStr "N20"); ("PPI_extra_mass_loss", VNum 0); ("conserve_hydrogen_envelope", VBool true); ("use_interp_values", VBool false); ("use_core_masses", VBool false)]);
  ("SN_MODEL_v2_17", [("mechanism", VStr "Sukhbold+16-engine"); ("engine", VStr "W20"); ("use_interp_values", VBool false); ("use_core_masses", VBool false)]);
  ("SN_MODEL_v2_18", [("mechanism", VStr "Sukhbold+16-engine"); ("engine", VStr "W20"); ("conserve_hydrogen_envelope", VBool true); ("use_interp_values", VBool false); ("use_core_masses", VBool false)]);
  ("SN_MODEL_v2_19", [("mechanism", VStr "Sukhbold+16-engine"); ("engine", VStr "W20"); ("PPI_extra_mass_loss", VNum 0); ("use_interp_values", VBool false); ("use_core_masses", VBool false)]);
  ("SN_MODEL_v2_20", [("mechanism", VStr "Sukhbold+16-engine"); ("engine", VStr "W20"); ("PPI_extra_mass_loss", VNum 0); ("conserve_hydrogen_envelope", VBool true); ("use_interp_values", VBool false); ("use_core_masses", VBool false)]);
  ("SN_MODEL_v2_21", [("mechanism", VStr "Patton&Sukhbold20-engine"); ("engine", VStr "W20"); ("use_interp_values", VBool false); ("use_core_masses", VBool false)]);
  ("SN_MODEL_v2_22", [("mechanism", VStr "Patton&Sukhbold20-engine"); ("engine", VStr "W20"); ("conserve_hydrogen_envelope", VBool true); ("use_interp_values", VBool false); ("use_core_masses", VBool false)]);
  ("SN_MODEL_v2_23", [("mechanism", VStr "Patton&Sukhbold20-engine"); ("engine", VStr "W20"); ("PPI_extra_mass_loss", VNum 0); ("use_interp_values", VBool false); ("use_core_masses", VBool false)]);
  ("SN_MODEL_v2_24", [("mechanism", VStr "Patton&Sukhbold20-engine"); ("engine", VStr "W20"); ("PPI_extra_mass_loss", VNum 0); ("conserve_hydrogen_envelope", VBool true); ("use_interp_values", VBool false); ("use_core_masses", VBool false)]);
  ("SN_MODEL_v2_25", [("mechanism", VStr "Maltsev+25-engine"); ("engine", VStr "M16"); ("use_interp_values", VBool false); ("use_core_masses", VBool false)]);
  ("SN_MODEL_v2_26", [("mechanism", VStr "Maltsev+25-engine"); ("engine", VStr "M16"); ("conserve_hydrogen_envelope", VBool true); ("use_interp_values", VBool false); ("use_core_masses", VBool false)]);
  ("SN_MODEL_v2_27", [("mechanism", VStr "Maltsev+25-engine"); ("engine", VStr "M16"); ("PPI_extra_mass_loss", VNum 0); ("use_interp_values", VBool false); ("use_core_masses", VBool false)]);
  ("SN_MODEL_v2_28", [("mechanism", VStr "Maltsev+25-engine"); ("engine", VStr "M16"); ("PPI_extra_mass_loss", VNum 0); ("conserve_hydrogen_envelope", VBool true); ("use_interp_values", VBool false); ("use_core_masses", VBool false)])].

(** dict.get(key, default) for a key of the defaults; dict.update. *)
Definition get (d : dict) (k : string) : option value := dget String.eqb d k.
Definition update (d e : dict) : dict := dset_all String.eqb d e.

(** Lines 524-545. *)
Definition get_SN_MODEL (name : string) : dict :=
  match dget String.eqb SN_MODELS name with Some m => update DEFAULT_SN_MODEL m | None => DEFAULT_SN_MODEL end.

(** Line 568: [a in b] on strings. *)
Fixpoint contains (a b : string) : bool :=
  prefix a b || match b with EmptyString => false | String _ b' => contains a b' end.
(** Lines 566-580: whether the loop over the keys ends without break. *)
Definition key_ok (input model : dict) (kv : string * value) : bool :=
  let '(key, default) := kv in
  let val := match get model key with Some v => v | None => default end in
  if contains "use_" key || String.eqb key "ECSN" then true
  else match get input key with Some v => veqb v val | None => false end.
Definition matches (input model : dict) : bool := forallb (key_ok input model) DEFAULT_SN_MODEL.
(** Lines 547-586 (the output for the user is not modelled). *)
Definition get_SN_MODEL_NAME (input : dict) : option string :=
  fold_left (fun sel nm => if matches input (snd nm) then Some (fst nm) else sel) SN_MODELS None.

(** The attributes with these names of StepSN(kwargs): step_SN.py:266-281 and 293-294. *)
Definition step_model (kwargs : dict) : dict :=
  map (fun kv => let v := match get kwargs (fst kv) with Some v => v | None => snd kv end in
                 (fst kv, if String.eqb (fst kv) "max_neutrino_mass_loss" then match v with VNone => VNum 0 | _ => v end else v)) DEFAULT_SN_MODEL.
(** The options of step_SN of an ini file: CLI/popsyn/setup.py:22-49. *)
Definition check_SN_MODEL_validity (step_SN : dict) : result bool :=
  match get step_SN "use_interp_values" with
  | None => Raise KeyError
  | Some v => if veqb v (VBool false) then Ok true else Ok (match get_SN_MODEL_NAME step_SN with None => false | Some _ => true end)
  end.
