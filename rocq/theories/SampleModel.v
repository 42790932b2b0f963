(** Initial conditions of binaries: posydon/popsyn/sample_from_file.py,
    posydon/popsyn/independent_sample.py and the BinaryGenerator of
    posydon/popsyn/binarypopulation.py. *)
From Coq Require Import String Ascii List ZArith QArith Bool Lia.
From Verif Require Import PyBase PyNum SamplerModel.
Import ListNotations.
Open Scope string_scope.
Open Scope nat_scope.
Open Scope list_scope.

(** * sample_from_file.py *)

(** The lists of accepted column names, sample_from_file.py:23-41. *)
Definition PRIMARY_MASS_NAMES := ["s1_mass"; "primary_mass"; "mass_1"; "m_1"; "m1"].
Definition SECONDARY_MASS_NAMES := ["s2_mass"; "secondary_mass"; "mass_2"; "m_2"; "m2"].
Definition PERIOD_NAMES := ["orbital_period"; "period"; "p_orb"; "porb"; "p"].
Definition SEPARATION_NAMES :=
  ["orbital_separation"; "separation"; "semi-major_axis"; "semi_major_axis"; "a"].
Definition ECCENTRICITY_NAMES := ["eccentricity"; "ecc"; "e"].
Definition PRIMARY_KICK_VELOCITY_NAMES :=
  ["s1_natal_kick_velocity"; "s1_natal_kick_array_0"; "w_1"; "w1"].
Definition SECONDARY_KICK_VELOCITY_NAMES :=
  ["s2_natal_kick_velocity"; "s2_natal_kick_array_0"; "w_2"; "w2"].
Definition PRIMARY_KICK_AZIMUTHAL_ANGLE_NAMES :=
  ["s1_natal_kick_azimuthal_angle"; "s1_natal_kick_array_1"; "phi_1"; "phi1"].
Definition SECONDARY_KICK_AZIMUTHAL_ANGLE_NAMES :=
  ["s2_natal_kick_azimuthal_angle"; "s2_natal_kick_array_1"; "phi_2"; "phi2"].
Definition PRIMARY_KICK_POLAR_ANGLE_NAMES :=
  ["s1_natal_kick_polar_angle"; "s1_natal_kick_array_2"; "theta_1"; "theta1"].
Definition SECONDARY_KICK_POLAR_ANGLE_NAMES :=
  ["s2_natal_kick_polar_angle"; "s2_natal_kick_array_2"; "theta_2"; "theta2"].
Definition PRIMARY_KICK_MEAN_ANOMALY_NAMES :=
  ["s1_natal_kick_mean_anomaly"; "s1_natal_kick_array_3"; "mean_anomaly_1"; "mean_anomaly1"].
Definition SECONDARY_KICK_MEAN_ANOMALY_NAMES :=
  ["s2_natal_kick_mean_anomaly"; "s2_natal_kick_array_3"; "mean_anomaly_2"; "mean_anomaly2"].

(** str.casefold for ASCII text (used in the examples; the theorems hold for any function). *)
Definition lower_char (c : ascii) : ascii :=
  let n := nat_of_ascii c in
  if (65 <=? n) && (n <=? 90) then ascii_of_nat (n + 32) else c.
Fixpoint casefold_ascii (s : string) : string :=
  match s with EmptyString => EmptyString | String c s' => String (lower_char c) (casefold_ascii s') end.

(** infer_key, sample_from_file.py:42-63; [casefold] is str.casefold. *)
Fixpoint infer_key (casefold : string -> string) (available allowed : list string) : string :=
  match allowed with
  | [] => ""
  | k :: ks =>
      match find (fun key => String.eqb (casefold key) (casefold k)) available with
      | Some key => key
      | None => infer_key casefold available ks
      end
  end.

(** A table as pandas.read_csv gives it: number of rows and columns with distinct names.
    Cells are numbers (NaN for empty ones). *)
Record csv := Csv { n_rows : nat; columns : list (string * list num) }.

(** df[key] *)
Definition column (d : csv) (key : string) : result (list num) :=
  match find (fun c => String.eqb (fst c) key) (columns d) with
  | Some (_, l) => Ok l
  | None => Raise KeyError
  end.

(** The keyword read_samples_from_file: absent, the empty string, a path that is no file, or
    a file with its contents. *)
Inductive path := NoPath | EmptyPath | MissingFile | File (d : csv).

(** The keywords that matter for sampling. *)
Record kwargs := Kw {
  k_number : option nat;        (* number_of_binaries *)
  k_index : option nat;         (* index *)
  k_scheme : option string;     (* orbital_scheme *)
  k_path : path                 (* read_samples_from_file *)
}.

Definition set_number (k : kwargs) (n : nat) := Kw (Some n) (k_index k) (k_scheme k) (k_path k).
Definition set_index (k : kwargs) (i : nat) := Kw (k_number k) (Some i) (k_scheme k) (k_path k).

(** Orbit, eccentricity, primary and secondary masses as the samplers return them. *)
Record quad := Quad { q_orbit : list num; q_ecc : list num; q_m1 : list num; q_m2 : list num }.

(** l[i:i+n] for natural numbers. *)
Definition slice {A} (i n : nat) (l : list A) : list A := firstn n (skipn i l).

(** Outcomes of programs with loops: [None] still running when the fuel is used up. *)
Definition run (A : Type) := option (result A).
Definition ret {A} (r : result A) : run A := Some r.
Definition bind {A B} (x : run A) (f : A -> run B) : run B :=
  match x with
  | None => None
  | Some (Raise e) => Some (Raise e)
  | Some (Ok a) => f a
  end.
Notation "'do' x <- e ; f" := (bind e (fun x => f)) (at level 200, x pattern, e at level 100, f at level 200).

Section FromFile.
  Variable G : Type.
  Variable casefold : string -> string.

  (** The generators of independent_sample.py that replace missing columns: number of
      values and state of the random generator in, values and new state out. *)
  Variable g_ecc : nat -> G -> run (list num * G).
  Variable g_m1 : nat -> G -> run (list num * G).
  Variable g_m2 : list num -> nat -> G -> run (list num * G).
  Variable g_sep : nat -> G -> run (list num * G).
  Variable g_per : list num -> nat -> G -> run (list num * G).

  (** A column of the file, or generated values for all rows of the file
      (sample_from_file.py:104-159, the same pattern for each quantity; the warnings are
      omitted). *)
  Definition column_or (d : csv) (names : list string) (gen : nat -> G -> run (list num * G))
      (g : G) : run (list num * G) :=
    let key := infer_key casefold (map fst (columns d)) names in
    if String.eqb key "" then gen (n_rows d) g
    else match column d key with
         | Ok l => ret (Ok (l, g))
         | Raise e => ret (Raise e)
         end.

  (** "while len(orbital_scheme_set)<index+number_of_binaries": all four arrays are doubled,
      sample_from_file.py:166-173.  [fuel] bounds the number of rounds. *)
  Fixpoint double_quad (fuel need : nat) (q : quad) : option quad :=
    if need <=? length (q_orbit q) then Some q
    else match fuel with
         | O => None
         | S f => double_quad f need (Quad (q_orbit q ++ q_orbit q) (q_ecc q ++ q_ecc q)
                                           (q_m1 q ++ q_m1 q) (q_m2 q ++ q_m2 q))
         end.

  (** get_samples_from_file, sample_from_file.py:65-182.  [scheme = None]: the default ''. *)
  Definition get_samples_from_file (fuel : nat) (scheme : option string) (k : kwargs) (g : G)
    : run (quad * G) :=
    match k_path k with
    | NoPath => ret (Raise KeyError)
    | EmptyPath | MissingFile => ret (Raise FileNotFoundError)
    | File d =>
        do (e, g1) <- column_or d ECCENTRICITY_NAMES g_ecc g;
        do (m1, g2) <- column_or d PRIMARY_MASS_NAMES g_m1 g1;
        do (m2, g3) <- column_or d SECONDARY_MASS_NAMES (g_m2 m1) g2;
        do (o, g4) <- match scheme with
                      | Some "separation" => column_or d SEPARATION_NAMES g_sep g3
                      | Some "period" => column_or d PERIOD_NAMES (g_per m1) g3
                      | _ => ret (Raise ValueError)
                      end;
        let n := match k_number k with Some n => n | None => 0 end in
        if 0 <? n then
          let i := match k_index k with Some i => i | None => 0 end in
          match double_quad fuel (i + n) (Quad o e m1 m2) with
          | None => None
          | Some q => ret (Ok (Quad (slice i n (q_orbit q)) (slice i n (q_ecc q))
                                    (slice i n (q_m1 q)) (slice i n (q_m2 q)), g4))
          end
        else ret (Ok (Quad o e m1 m2, g4))
    end.

  (** A kick column of the file, or None for every row (sample_from_file.py:219-296, the same
      pattern eight times). *)
  Definition kick_column (d : csv) (names : list string) : result (list (option num)) :=
    let key := infer_key casefold (map fst (columns d)) names in
    if String.eqb key "" then Ok (repeat None (n_rows d))
    else rbind (column d key) (fun l => Ok (map Some l)).

  (** np.transpose(np.array([w, phi, theta, mean_anomaly])): rows of four. *)
  Definition kick_row : Type := option num * option num * option num * option num.
  Definition transpose4 (w p t m : list (option num)) : list kick_row :=
    map (fun x => match x with (((a, b), c), d) => (a, b, c, d) end)
        (combine (combine (combine w p) t) m).

  Definition kick_set (d : csv) (names_w names_p names_t names_m : list string)
    : result (list kick_row) :=
    rbind (kick_column d names_w) (fun w =>
    rbind (kick_column d names_p) (fun p =>
    rbind (kick_column d names_t) (fun t =>
    rbind (kick_column d names_m) (fun m => Ok (transpose4 w p t m))))).

  Fixpoint double_kicks (fuel need : nat) (a b : list kick_row) : option (list kick_row * list kick_row) :=
    if need <=? length a then Some (a, b)
    else match fuel with O => None | S f => double_kicks f need (a ++ a) (b ++ b) end.

  (** get_kick_samples_from_file, sample_from_file.py:184-312. *)
  Definition get_kick_samples_from_file (fuel : nat) (k : kwargs)
    : run (list kick_row * list kick_row) :=
    match k_path k with
    | NoPath => ret (Raise KeyError)
    | EmptyPath | MissingFile => ret (Raise FileNotFoundError)
    | File d =>
        do k1 <- ret (kick_set d PRIMARY_KICK_VELOCITY_NAMES PRIMARY_KICK_AZIMUTHAL_ANGLE_NAMES
                                 PRIMARY_KICK_POLAR_ANGLE_NAMES PRIMARY_KICK_MEAN_ANOMALY_NAMES);
        do k2 <- ret (kick_set d SECONDARY_KICK_VELOCITY_NAMES SECONDARY_KICK_AZIMUTHAL_ANGLE_NAMES
                                 SECONDARY_KICK_POLAR_ANGLE_NAMES SECONDARY_KICK_MEAN_ANOMALY_NAMES);
        match k_number k with
        | None => ret (Ok (k1, k2))
        | Some n =>
            let i := match k_index k with Some i => i | None => 0 end in
            match double_kicks fuel (i + n) k1 k2 with
            | None => None
            | Some (a, b) => ret (Ok (slice i n a, slice i n b))
            end
        end
    end.
End FromFile.

(** * independent_sample.py *)

(** Arrays are objects: a heap of arrays addressed by position, so that two names can denote
    the same array. *)
Definition heap := list (list num).
Definition array (h : heap) (r : nat) : list num := nth r h [].
Fixpoint put (h : heap) (r : nat) (l : list num) : heap :=
  match h, r with
  | [], _ => []
  | _ :: h', O => l :: h'
  | a :: h', S r' => a :: put h' r' l
  end.

(** a[idx] = nan, in place; the index set is given as a mask of the same length. *)
Fixpoint nan_where (mask : list bool) (l : list num) : list num :=
  match mask, l with
  | b :: mask', x :: l' => (if b then NaN else x) :: nan_where mask' l'
  | _, _ => l
  end.
Definition set_nan (h : heap) (r : nat) (mask : list bool) : heap :=
  put h r (nan_where mask (array h r)).

(** The value of the Moe & Di Stefano (2017) binary fraction, independent_sample.py:406-411;
    the literals as exact rationals are only compared with draws. *)
Definition moe_fraction (m : num) : num :=
  if ngt m (Fin 16) then Fin (94 # 100)
  else if nle m (Fin 16) && ngt m (Fin 9) then Fin (84 # 100)
  else if nle m (Fin 9) && ngt m (Fin 5) then Fin (76 # 100)
  else if nle m (Fin 5) && ngt m (Fin 2) then Fin (59 # 100)
  else if nle m (Fin 2) then Fin (40 # 100)
  else Fin 0.

(** generate_binary_fraction, independent_sample.py:375-416 (the case m1=None, an error, does
    not occur in the sampler). *)
Definition generate_binary_fraction (scheme : string) (const : num) (m1 : list num)
  : result (list num) :=
  if String.eqb scheme "const" then Ok (map (fun _ => const) m1)
  else if String.eqb scheme "Moe+17-massdependent" then Ok (map moe_fraction m1)
  else Raise ValueError.

Section Independent.
  Variable G : Type.
  Variable next : G -> Q * G.
  Variable scale : Q -> Q -> Q -> Q.
  (** Floating-point quotient and product. *)
  Variable fdiv fmul : Q -> Q -> Q.

  Definition qmax (a b : Q) : Q := if Qle_bool a b then b else a.
  Definition qmin (a b : Q) : Q := if Qle_bool a b then a else b.

  (** FlatMassRatio.__init__, posydon/popsyn/distributions.py:51-60 (the normalisation
      integral is the length of the interval, which is not zero). *)
  Definition flat_mass_ratio_ok (q_min q_max : Q) : bool :=
    (Qle_bool 0 q_min && negb (Qle_bool 1 q_min)) &&
    (negb (Qle_bool q_max 0) && Qle_bool q_max 1) &&
    negb (Qle_bool q_max q_min).

  (** The loop over the binaries for 'flat_mass_ratio', independent_sample.py:354-367:
      mass ratio and product for each primary mass in turn. *)
  Fixpoint flat_secondaries (smin smax : Q) (m1 : list Q) (g : G) : result (list Q * G) :=
    match m1 with
    | [] => Ok ([], g)
    | m :: m1' =>
        let q_min := qmax (fdiv smin m) 0 in
        let q_max := qmin (fdiv smax m) 1 in
        if flat_mass_ratio_ok q_min q_max then
          let '(u, g1) := next g in
          rbind (flat_secondaries smin smax m1' g1) (fun '(l, g2) =>
            Ok (fmul m (scale q_min q_max u) :: l, g2))
        else Raise ValueError
    end.

  (** generate_secondary_masses, independent_sample.py:315-373.  The primary masses are
      finite numbers here (the IMFs draw finite masses).  The result is [None] for 'q=1',
      where the function returns the array of primary masses itself.  np.min of an empty
      array is a ValueError. *)
  Definition generate_secondary_masses (scheme : string) (smin smax : Q) (m1 : list Q) (g : G)
    : result (option (list Q) * G) :=
    if negb (inb String.eqb scheme ["flat_mass_ratio"; "q=1"]) then Raise ValueError
    else match m1 with
    | [] => Raise ValueError
    | m :: m1' =>
        if negb (Qle_bool smin (qmin_list m m1')) then Raise ValueError
        else if String.eqb scheme "flat_mass_ratio"
             then rbind (flat_secondaries smin smax m1 g) (fun '(l, g') => Ok (Some l, g'))
             else Ok (None, g)
    end.

  (** The remaining generators: number of values, state in; values, new state out.  Those of
      orbital periods also get the primary masses. *)
  Record config := Config {
    c_m1 : nat -> G -> run (list Q * G);
    c_secondary_scheme : string;
    c_smin : Q;
    c_smax : Q;
    c_sep : nat -> G -> run (list num * G);
    c_per : list Q -> nat -> G -> run (list num * G);
    c_ecc : nat -> G -> run (list num * G);
    c_fraction_scheme : string;
    c_fraction : num
  }.

  (** Values computed one by one from numbers uniform in [lo, hi): Salpeter.rvs and
      Kroupa1993.rvs (posydon/popsyn/IMFs.py:175-205, 273-303), LogUniform.rvs,
      ThermalEccentricity.rvs and UniformEccentricity.rvs (posydon/popsyn/distributions.py:
      788-810, 923-945, 1026-1044); [f] is the function applied to each number. *)
  Definition by_uniform {A} (f : Q -> A) (lo hi : Q) (n : nat) (g : G) : run (list A * G) :=
    let '(us, g') := uniform G next scale lo hi n g in ret (Ok (map f us, g')).

  (** ZeroEccentricity.rvs, distributions.py:1089-1104. *)
  Definition zeros (n : nat) (g : G) : run (list num * G) := ret (Ok (repeat (Fin 0) n, g)).

  (** periods[mask] = vals for a mask (values for the true and for the false entries). *)
  Fixpoint merge_mask {A} (mask : list bool) (ts fs : list A) : list A :=
    match mask with
    | [] => []
    | true :: mask' => match ts with t :: ts' => t :: merge_mask mask' ts' fs | [] => [] end
    | false :: mask' => match fs with f :: fs' => f :: merge_mask mask' ts fs' | [] => [] end
    end.

  (** Sana12Period.rvs, distributions.py:477-542; [lo], [hi] are the decimal logarithms of the
      limits, [pow10] is 10**x, [pdf] the density above the break mass of 15 Msun. *)
  Definition sana_periods (fuel : nat) (lo hi : Q) (pow10 : Q -> num) (pdf : Q -> Q)
      (m1 : list Q) (size : nat) (g : G) : run (list num * G) :=
    do m <- (match m1 with
             | [x] => ret (Ok (repeat x size))
             | _ => if length m1 =? size then ret (Ok m1) else ret (Raise ValueError)
             end);
    let low := map (fun x => Qle_bool x 15) m in
    let n_low := length (filter (fun b => b) low) in
    let n_high := length (filter negb low) in
    let '(pl, g1) := uniform G next scale lo hi n_low g in
    do (ph, g2) <- (if 0 <? n_high
                    then rejection_sampler G next scale fuel None (fun x => x) (Some (lo, hi)) (Some pdf) n_high g1
                    else ret (Ok ([], g1)));
    ret (Ok (map pow10 (merge_mask low pl ph), g2)).

  (** generate_independent_samples, independent_sample.py:26-100, without the branch for
      Moe+17-PsandQs; [scheme = None] is the default 'period'. *)
  Definition generate_independent_samples (c : config) (scheme : option string) (k : kwargs) (g : G)
    : run (quad * G) :=
    let n := match k_number k with Some n => n | None => 1 end in
    do (m1, g1) <- c_m1 c n g;
    do (m2, g2) <- ret (generate_secondary_masses (c_secondary_scheme c) (c_smin c) (c_smax c) m1 g1);
    do (o, g3) <- match scheme with
                  | Some "separation" => c_sep c n g2
                  | Some "period" | None => c_per c m1 n g2
                  | Some _ => ret (Raise ValueError)
                  end;
    do (e, g4) <- c_ecc c n g3;
    (* the arrays in memory: primary masses, orbits, eccentricities, maybe secondary masses *)
    let h := [map Fin m1; o; e] ++ match m2 with Some l => [map Fin l] | None => [] end in
    let r2 := match m2 with Some _ => 3 | None => 0 end in
    do f <- ret (generate_binary_fraction (c_fraction_scheme c) (c_fraction c) (map Fin m1));
    let '(us, g5) := raws G next (length m1) g4 in
    let mask := map (fun p => ngt (Fin (fst p)) (snd p)) (combine us f) in
    let h1 := set_nan h 1 mask in
    let h2 := set_nan h1 2 mask in
    let h3 := set_nan h2 r2 mask in
    ret (Ok (Quad (array h3 1) (array h3 2) (array h3 0) (array h3 r2), g5)).
End Independent.

(** * BinaryGenerator, posydon/popsyn/binarypopulation.py:984-1180 *)

Record binary := Binary {
  b_index : nat;
  b_time : num;
  b_state : string;
  b_event : string;
  b_sep : num;
  b_period : num;
  b_ecc : num;
  b_m1 : num;
  b_kick1 : kick_row;
  b_star2 : option (num * kick_row)     (* None: a massless remnant *)
}.

(** array.item(): the only element. *)
Definition item {A} (l : list A) : result A :=
  match l with [x] => Ok x | _ => Raise ValueError end.

Definition is_nan (x : num) : bool := match x with NaN => true | _ => false end.

Section Generator.
  Variable G : Type.
  (** The sampler with its optional argument orbital_scheme. *)
  Variable sampler : option string -> kwargs -> G -> run (quad * G).
  (** get_kick_samples_from_file(kwargs) *)
  Variable kicks_from_file : kwargs -> run (list kick_row * list kick_row).
  (** get_formation_times(N_binaries, kwargs) *)
  Variable formation_times : nat -> G -> run (list num * G).
  (** orbital_period_from_separation and orbital_separation_from_period. *)
  Variable period_of separation_of : num -> num -> num -> num.

  Definition no_kick : kick_row := (None, None, None, None).

  Definition zip3 (f : num -> num -> num -> num) (a b c : list num) : list num :=
    map (fun x => f (fst (fst x)) (snd (fst x)) (snd x)) (combine (combine a b) c).

  Record samples := Samples {
    s_index : list nat;
    s_is_binary : list bool;
    s_time : list num;
    s_sep : list num;
    s_ecc : list num;
    s_period : list num;
    s_m1 : list num;
    s_m2 : list num;
    s_kick1 : list kick_row;
    s_kick2 : list kick_row
  }.

  (** draw_initial_samples, binarypopulation.py:1026-1082.  In and out: the state of the
      random generator used and the counter _num_gen. *)
  Definition draw_initial_samples (k : kwargs) (g : G) (num_gen : nat) : run (samples * G * nat) :=
    let scheme := match k_scheme k with Some s => s | None => "separation" end in
    do (q, g1) <- sampler (Some scheme) k g;
    do (sep, per) <- (if String.eqb scheme "separation"
                      then ret (Ok (q_orbit q, zip3 period_of (q_orbit q) (q_m1 q) (q_m2 q)))
                      else if String.eqb scheme "period"
                      then ret (Ok (zip3 separation_of (q_orbit q) (q_m1 q) (q_m2 q), q_orbit q))
                      else ret (Raise ValueError));
    let n := length per in
    do (times, g2) <- formation_times n g1;
    do (k1, k2) <- match k_path k with
                   | NoPath | EmptyPath =>
                       let m := match k_number k with Some m => m | None => 1 end in
                       ret (Ok (repeat no_kick m, repeat no_kick m))
                   | _ => kicks_from_file k
                   end;
    ret (Ok (Samples (seq num_gen n) (map (fun m => negb (is_nan m)) (q_m2 q)) times sep (q_ecc q) per
                     (q_m1 q) (q_m2 q) k1 k2, g2, num_gen + n)).

  (** draw_initial_binary, binarypopulation.py:1084-1180. *)
  Definition draw_initial_binary (k : kwargs) (g : G) (num_gen : nat) : run (binary * G * nat) :=
    do (s, g1, ng) <- draw_initial_samples (set_number k 1) g num_gen;
    do default_index <- ret (item (s_index s));
    do is_binary <- ret (item (s_is_binary s));
    do time <- ret (item (s_time s));
    do m1 <- ret (item (s_m1 s));
    do kick1 <- ret (item (s_kick1 s));
    let index := match k_index k with Some i => i | None => default_index end in
    if is_binary then
      do sep <- ret (item (s_sep s));
      do per <- ret (item (s_period s));
      do ecc <- ret (item (s_ecc s));
      do m2 <- ret (item (s_m2 s));
      do kick2 <- ret (item (s_kick2 s));
      ret (Ok (Binary index time "detached" "ZAMS" sep per ecc m1 kick1 (Some (m2, kick2)), g1, ng))
    else
      ret (Ok (Binary index time "initially_single_star" "ZAMS" NaN NaN NaN m1 kick1 None, g1, ng)).

  (** The generator object: initial state of the random numbers (from the entropy), current
      state, number of binaries generated so far. *)
  Record generator := Gen { original : G; rng : G; num_gen : nat }.

  (** reset_rng, binarypopulation.py:1005-1008. *)
  Definition reset_rng (o : generator) : generator := Gen (original o) (original o) 0.

  (** A call of draw_initial_binary on the object itself (it uses and advances self.RNG). *)
  Definition draw (k : kwargs) (o : generator) : run (binary * generator) :=
    do (b, g, n) <- draw_initial_binary k (rng o) (num_gen o);
    ret (Ok (b, Gen (original o) g n)).

  (** get_binary_by_iter, binarypopulation.py:1015-1024; the keyword index in kwargs would be
      a TypeError and is not given.  The sampler is called without orbital_scheme unless the
      caller gave it. *)
  Definition get_binary_by_iter (n : nat) (k : kwargs) (o : generator) : run (binary * generator) :=
    do (_, g) <- (if n =? 0 then ret (Ok (tt, original o))
                  else do (_, g) <- sampler (k_scheme k) (set_number k (n - 1)) (original o);
                       ret (Ok (tt, g)));
    do (b, _, _) <- draw_initial_binary (set_index k n) g (num_gen o);
    ret (Ok (b, Gen (original o) (rng o) (num_gen o))).

  (** Drawing [n] binaries one after the other. *)
  Fixpoint draw_many (n : nat) (k : kwargs) (o : generator) : run (list binary * generator) :=
    match n with
    | O => ret (Ok ([], o))
    | S n' => do (b, o1) <- draw k o;
              do (bs, o2) <- draw_many n' k o1;
              ret (Ok (b :: bs, o2))
    end.
End Generator.
