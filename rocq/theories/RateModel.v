(** Weights, efficiencies and rates of transient populations,
    posydon/popsyn/synthetic_population.py:1881-2213, 2355-2390, 2570-2732.

    Metallicities and indices of binaries are integers (floats are multiples of a fixed power
    of two); masses and weights are exact rationals, [None] stands for NaN. *)
From Coq Require Import String List ZArith QArith Bool Lia.
From Verif Require Import PyBase TableModel ExportModel.
Import ListNotations.
Open Scope string_scope.
Open Scope nat_scope.
Open Scope list_scope.

(** ** Model weights, lines 1939-1971 *)
Section Weights.
  Variable O : Type.
  (** calculate_model_weights of norm_pop.py works row by row: the weight of a system with
      initial properties [O] in a simulation of the given mass (a parameter here).  The swap
      of the two masses (1958-1962) is part of it. *)
  Variable weight : Q -> O -> option Q.

  (** model_weights.index.to_series().map(mapping).fillna(old) *)
  Definition map_weights (mapping : list (Z * option Q)) (old : table Q) : table Q :=
    map (fun r => (fst r, match dget Z.eqb mapping (fst r) with Some (Some w) => w | _ => snd r end)) old.

  (** One metallicity. *)
  Definition weights_of_metallicity (trans : table Z) (o : oneline O) (met : Z) (m_sim : Q) (old : table Q)
    : result (table Q) :=
    let indices := sorted_unique (keys (filter (fun r => Z.eqb (snd r) met) trans)) in
    match indices with
    | [] => Ok old
    | _ => rbind (select_in (o_chunk o) (o_rows o) indices) (fun pop =>
           Ok (map_weights (dset_all Z.eqb [] (combine indices (map (fun r => weight m_sim (snd r)) pop))) old))
    end.

  (** [trans]: index and metallicity of every transient; [masses]: mass_per_metallicity. *)
  Fixpoint model_weights_loop (trans : table Z) (o : oneline O) (masses : list (Z * Q)) (old : table Q) : result (table Q) :=
    match masses with
    | [] => Ok old
    | (met, m) :: rest => rbind (weights_of_metallicity trans o met m old) (model_weights_loop trans o rest)
    end.
  Definition calculate_model_weights (trans : table Z) (o : oneline O) (masses : list (Z * Q)) : result (table Q) :=
    model_weights_loop trans o masses (map (fun r => (fst r, 0%Q)) trans).
End Weights.
Arguments calculate_model_weights {O} _ _ _ _.

(** ** Cosmic weights *)

(** A model of the star-formation history: parameter names and values.  Lines 2084-2089: MODEL
    is the dictionary DEFAULT_SFH_MODEL itself, so an update changes the default.  The result
    is both the model used and the default afterwards. *)
Definition sfh_model := list (string * string).
Definition cosmic_model (default : sfh_model) (given : option sfh_model) : sfh_model :=
  match given with None => default | Some m => dset_all String.eqb default m end.
(** The models used by a sequence of calls. *)
Fixpoint cosmic_models (default : sfh_model) (calls : list (option sfh_model)) : list sfh_model :=
  match calls with [] => [] | c :: cs => let m := cosmic_model default c in m :: cosmic_models m cs end.

Section Chunked.
  Variables T W R : Type.
  (** The loops over range(0, number of systems, chunksize), lines 2148-2212 and 2671-2695.
      [rows] are the transients, [ws] the rows of the table read along with them, [f] is what
      is computed for a chunk; an empty chunk writes nothing. *)
  Variable f : list T -> list W -> list R.
  Fixpoint chunk_loop (fuel c i systems : nat) (rows : list T) (ws : list W) : list R :=
    if systems <=? i then []
    else match fuel with
    | 0 => []
    | S k => match window i (i + c) rows with
             | [] => []
             | chunk => f chunk (window i (i + c) ws)
             end ++ chunk_loop k c (i + c) systems rows ws
    end.
  Definition chunked (c systems : nat) (rows : list T) (ws : list W) : list R := chunk_loop systems c 0 systems rows ws.
End Chunked.
Arguments chunked {T W R} _ _ _ _ _.
Arguments chunk_loop {T W R} _ _ _ _ _ _ _.

(** The weights of one transient over the birth bins, lines 2189-2200: zeros, overwritten for
    every metallicity centre that equals its metallicity. [row j] is the computed row for
    centre number j. *)
Fixpoint overwrite_centers {A} (met : Z) (centers : list Z) (j : nat) (row : nat -> A) (cur : A) : A :=
  match centers with
  | [] => cur
  | c :: cs => overwrite_centers met cs (S j) row (if Z.eqb met c then row j else cur)
  end.

(** The table of weights of calculate_cosmic_weights: index of the transient and its row.
    [compute j t w]: the row of transient [t] with model weight [w] for centre [j]. *)
Section Cosmic.
  Variables T A : Type.
  Variable compute : nat -> T -> Q -> A.
  Variable zeros : A.
  Definition cosmic_chunk (centers : list Z) (chunk : list (Z * (Z * T))) (ws : list Q) : list (Z * A) :=
    map (fun p => (fst (fst p), overwrite_centers (fst (snd (fst p))) centers 0
                                  (fun j => compute j (snd (snd (fst p))) (snd p)) zeros)) (combine chunk ws).
  Definition cosmic_weights (centers : list Z) (c systems : nat) (trans : list (Z * (Z * T))) (ws : list Q) : list (Z * A) :=
    chunked (cosmic_chunk centers) c systems trans ws.
End Cosmic.
Arguments cosmic_weights {T A} _ _ _ _ _ _ _.

(** ** Observable populations, lines 2624-2732 *)
(** The tables "transients/<name>/rates/observable/<observable>" of a file: the path does not
    contain the identifier of the star-formation history. *)
Section Observable.
  Variables T W R : Type.
  Definition observables := list (string * list R).
  (** For one Rates object with transients [trans] and weights [ws]. *)
  Definition calculate_observable (func : list T -> list W -> list R) (name : string) (c systems : nat)
      (trans : list T) (ws : list W) (file : observables) : observables :=
    let removed := filter (fun p => negb (String.eqb (fst p) name)) file in
    match chunked func c systems trans ws with
    | [] => removed
    | rows => removed ++ [(name, rows)]
    end.
  Definition observable_population (name : string) (file : observables) : result (list R) :=
    match dget String.eqb file name with Some r => Ok r | None => Raise ValueError end.
End Observable.
Arguments calculate_observable {T W R} _ _ _ _ _ _ _.
Arguments observable_population {R} _ _.

(** ** Efficiency, lines 2355-2390 *)
(** A transient: metallicity, channel ([None]: missing) and model weight. *)
Record event := Event { ev_met : Z; ev_chan : option string; ev_weight : Q }.
Definition nsum (l : list Q) : Q := fold_right Qplus 0%Q l.

(** The distinct channels of one metallicity (groupby leaves missing ones out). *)
Fixpoint distinct (l : list string) : list string :=
  match l with [] => [] | x :: l' => x :: filter (fun y => negb (String.eqb y x)) (distinct l') end.
Definition channels_of (events : list event) : list string :=
  distinct (flat_map (fun e => match ev_chan e with Some c => [c] | None => [] end) events).

Definition same_cell (a b : Z * string) : bool := Z.eqb (fst a) (fst b) && String.eqb (snd a) (snd b).
Definition efficiency_cells (mets : list Z) (events : list event) (channels : bool) : list ((Z * string) * Q) :=
  let totals := map (fun m => ((m, "total"), nsum (map ev_weight (filter (fun e => Z.eqb (ev_met e) m) events)))) mets in
  let groups := flat_map (fun m =>
      let here := filter (fun e => Z.eqb (ev_met e) m) events in
      map (fun ch => ((m, ch), nsum (map ev_weight (filter (fun e => match ev_chan e with Some c => String.eqb c ch | None => false end) here))))
          (channels_of here)) (sorted_unique (map ev_met events)) in
  if channels then totals ++ groups else totals.
(** A cell of the returned table; cells without a value are 0 (fillna). *)
Definition efficiency (mets : list Z) (events : list event) (channels : bool) (met : Z) (column : string) : Q :=
  match last_write same_cell (efficiency_cells mets events channels) (met, column) with Some w => w | None => 0%Q end.

(** ** Intrinsic rate density, lines 2587-2617 *)
(** One entry of the matrices z_events and weights with the channel of its row. *)
Record entry := Entry { en_chan : string; en_z : option Q; en_w : option Q }.
Definition nansum (l : list (option Q)) : Q := fold_right (fun w acc => match w with Some q => q + acc | None => acc end)%Q 0%Q l.
Definition in_bin (lo hi : Q) (e : entry) : bool :=
  match en_z e with
  | Some z => negb (Qle_bool z lo) && Qle_bool z hi
  | None => false
  end.
Definition rate_total (entries : list entry) (lo hi norm : Q) : Q :=
  (nansum (map en_w (filter (in_bin lo hi) entries)) / norm)%Q.
Definition rate_channel (entries : list entry) (lo hi norm : Q) (ch : string) : Q :=
  (nansum (map en_w (filter (fun e => in_bin lo hi e && String.eqb (en_chan e) ch) entries)) / norm)%Q.
(** For every bin: the total and the channels (np.unique; its order does not matter here). *)
Fixpoint rate_density (entries : list entry) (edges norms : list Q) (channels : bool) : list (Q * list (string * Q)) :=
  match edges, norms with
  | lo :: ((hi :: _) as rest), n :: ns =>
      (rate_total entries lo hi n,
       if channels then map (fun ch => (ch, rate_channel entries lo hi n ch)) (distinct (map en_chan entries)) else [])
      :: rate_density entries rest ns channels
  | _, _ => []
  end.
