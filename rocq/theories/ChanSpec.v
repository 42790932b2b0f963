(** What a user of formation channels and transient populations relies on. *)
From Coq Require Import String List ZArith Bool.
Import ListNotations.
Open Scope string_scope.
Open Scope list_scope.

(** A population file into which the binaries were written one after another: for every
    binary its index, the rows of its history (at least one) and its one-line row. *)
Definition binaries (H O : Type) := list (Z * (list H * O)).
Definition written {H O} (bins : binaries H O) (hist : list (Z * H)) (lengths : list (Z * nat))
    (ones : list (Z * O)) : Prop :=
  NoDup (map fst bins) /\ (forall b, In b bins -> fst (snd b) <> []) /\
  hist = flat_map (fun b => map (pair (fst b)) (fst (snd b))) bins /\
  lengths = map (fun b => (fst b, length (fst (snd b)))) bins /\
  ones = map (fun b => (fst b, snd (snd b))) bins.

(** The events that the flow chart knows (None is not written into a channel). *)
Definition event_words : list string :=
  [ "CC1"; "CC2"; "ZAMS"; "oRLO1"; "oRLO2"; "oCE1"; "oCE2"; "oDoubleCE1"; "oDoubleCE2"; "CO_contact";
    "redirect_from_ZAMS"; "redirect_from_CO_HMS_RLO"; "redirect_from_CO_HeMS";
    "redirect_from_CO_HeMS_RLO"; "MaxTime_exceeded"; "maxtime"; "oMerging1"; "oMerging2";
    "Match1"; "Match2"; "Match12"; "END"; "FAILED" ].

Definition present {A} (l : list (option A)) : list A :=
  flat_map (fun x => match x with Some a => [a] | None => [] end) l.

(** The words of the debugging channel: the events, and after the first one the kind of mass
    transfer in the HMS-HMS grid if it was stable. *)
Definition debug_words (events : list string) (class : option string) : list string :=
  match events with
  | [] => []
  | e :: rest =>
      match class with
      | Some "stable_MT" => e :: "oRLO1" :: rest
      | Some "stable_reverse_MT" => e :: "oRLO1-reverse" :: rest
      | _ => e :: rest
      end
  end.

(** The words of the channel: redirections and contact of compact objects are left out (except
    in first position), and in case of a contact phase all oRLO1 are marked. *)
Definition hidden (w : string) : bool :=
  existsb (String.eqb w) [ "redirect_from_ZAMS"; "redirect_from_CO_HMS_RLO"; "redirect_from_CO_HeMS_RLO";
                           "redirect_from_CO_HeMS"; "CO_contact" ].
Definition mark (w : string) : string :=
  if String.eqb w "oRLO1" then "oRLO1-contact"
  else if String.eqb w "oRLO1-reverse" then "oRLO1-contact-reverse" else w.
Definition channel_words (words : list string) (contact : bool) : list string :=
  let visible := match words with [] => [] | w :: rest => w :: filter (fun x => negb (hidden x)) rest end in
  if contact then map mark visible else visible.

Definition text (words : list string) : string := String.concat "_" words.
Definition first100 (s : string) : string := substring 0 100 s.

Definition known_class (c : option string) : Prop :=
  match c with
  | None => True
  | Some s => In s ["initial_MT"; "stable_MT"; "stable_reverse_MT"; "no_MT"; "unstable_MT"]
  end.
