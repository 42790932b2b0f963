(** Model of the initial-final interpolator, posydon/interpolation/IF_interpolation.py.

    Real arithmetic, [None] for NaN and infinities.  A run of the grid is the row of its inputs, the row of its outputs, its interpolation class and the class by
    which the interpolation is done (column c_key); inputs are as in the array XT (with the mass ratio if so chosen) and outputs as in YT after missing values were filled.  The classifier of scikit-learn, its nearest neighbours and scipy's LinearNDInterpolator are parameters, functions
    of the data they are fitted to and a point; so is the enforcement of constraints (see ConstraintModel).  The choice of scalings by cross validation is not
    modelled: scalings are given.  Binaries are evaluated one at a time; printing and warnings are left out, but not the exceptions raised on the way to them. *)
From Coq Require Import String List Bool Reals Ascii Arith.
From Verif Require Import PyBase ScalerModel.
Import ListNotations.
Open Scope string_scope.
Open Scope R_scope.
Open Scope list_scope.

Definition row := list fl.
Record grun := GRun { g_in : row; g_out : row; g_ic : string; g_c : string }.

Fixpoint mapm {A B} (f : A -> result B) (l : list A) : result (list B) :=
  match l with [] => Ok [] | a :: l' => rbind (f a) (fun b => rbind (mapm f l') (fun bs => Ok (b :: bs))) end.
Definition is_nan (x : fl) : bool := match x with Some _ => false | None => true end.

(** ** Which runs are used: ignored_classes, lines 430-435, and _setValid, lines 630-652.  The number is that of the class in the code; only its sign matters. *)
Definition ignored_classes : list string := ["not_converged"; "ignored_no_BH"; "ignored_no_RLO"; "initial_MT"].
Definition discarded_flags : list string := ["not_converged"; "ignored_no_RLO"; "ignored_no_binary_history"].
Definition inb (x : string) (l : list string) : bool := existsb (String.eqb x) l.
Definition is_one (x : fl) : bool := match x with Some a => if Req_EM_T a 1 then true else false | None => false end.
Definition valid (in_q : bool) (r : grun) : Z :=
  let v := if inb (g_ic r) discarded_flags then (-1)%Z else 0%Z in
  let v := if existsb is_nan (g_in r) then (-1)%Z else v in
  let v := if inb (g_ic r) ignored_classes then v else 1%Z in
  if in_q && is_one (nth 1 (g_in r) None) then (-1)%Z else v.
Definition used (in_q : bool) (grid : list grun) : list grun := filter (fun r => Z.ltb 0 (valid in_q r)) grid.
Definition kept (in_q : bool) (grid : list grun) : list grun := filter (fun r => Z.leb 0 (valid in_q r)) grid.

(** ** MatrixScaler, lines 1538-1572.  The transformations of DataScaler act value by value and are applied so here. *)
Definition column (i : nat) (X : list row) : list fl := map (fun r => nth i r None) X.
Definition fit1 (norm : string) (col : list fl) : result scaler :=
  match fit new_scaler (Array1 (filter (fun x => negb (is_nan x)) col)) norm (-1) 1 with (s, None) => Ok s | (_, Some e) => Raise e end.
Definition matrix_scaler (norms : list string) (n : nat) (X : list row) : result (list scaler) :=
  if negb (Nat.eqb (length norms) n) then Raise ValueError
  else mapm (fun p => fit1 (snd p) (column (fst p) X)) (combine (seq 0 n) norms).
Definition one (f : list fl -> result (list fl)) (x : fl) : result fl := rbind (f [x]) (fun l => Ok (hd None l)).
Definition scale_row (ms : list scaler) (r : row) : result row :=
  if negb (Nat.eqb (length r) (length ms)) then Raise (OtherError "AssertionError") else mapm (fun p => one (transform (fst p)) (snd p)) (combine ms r).
Definition unscale_row (ms : list scaler) (r : row) : result row :=
  if negb (Nat.eqb (length r) (length ms)) then Raise (OtherError "AssertionError") else mapm (fun p => one (inv_transform (fst p)) (snd p)) (combine ms r).

(** ** Scaler, lines 1474-1536.  Scalings as the constructor may get them: a list of strings, as its documentation says, or a pair as _bestScaling (942-1036) gives
    it, of either a list or a dictionary of lists by class, and a list for all classes.  A string is taken as the list of its characters. *)
Inductive scaling := Documented (l : list string) | Uniform (l all : list string) | ByClass (per : list (string * list string)) (all : list string).
Definition chars (s : string) : list string := map (fun c => String c "") (list_ascii_of_string s).
Definition scalers := list (option string * list scaler).
(** XT[np.where(ic == klass)[0]]; ic is not longer than XT where it is used. *)
Definition of_class (klass : string) (ic : list string) (X : list row) : list row := map snd (filter (fun p => String.eqb (fst p) klass) (combine ic X)).
Definition build_scaler (norms : scaling) (n : nat) (X : list row) (ic : list string) : result scalers :=
  match norms with
  | Documented (a :: b :: _) => if String.eqb a b then rbind (matrix_scaler (chars a) n X) (fun m => Ok [(None, m)]) else Raise AttributeError
  | Documented _ => Raise IndexError
  | Uniform l all => if list_eq_dec string_dec l all then rbind (matrix_scaler l n X) (fun m => Ok [(None, m)]) else Raise AttributeError
  | ByClass per all =>
      rbind (mapm (fun p => rbind (matrix_scaler (snd p) n (of_class (fst p) ic X)) (fun m => Ok (Some (fst p), m))) per) (fun ms =>
      rbind (matrix_scaler all n X) (fun m => Ok (ms ++ [(None, m)])))
  end.
Definition okey_eqb (a b : option string) : bool := match a, b with Some x, Some y => String.eqb x y | None, None => true | _, _ => false end.
(** The last entry with the key, as in a dictionary; keys of a dictionary of scalings are different. *)
Definition lookup (sc : scalers) (k : option string) : option (list scaler) := option_map snd (find (fun p => okey_eqb (fst p) k) sc).
Definition class_key (c : string) : option string := if String.eqb c "None" then None else Some c.
(** normalize and denormalize of one row; [None] for no classes given *)
Definition apply_scaler (f : list scaler -> row -> result row) (sc : scalers) (klass : option string) (x : row) : result row :=
  match klass with
  | None => match lookup sc None with Some m => f m x | None => Raise KeyError end
  | Some c => match lookup sc (class_key c) with Some m => f m x | None => Ok x end
  end.
Definition normalize := apply_scaler scale_row.
Definition denormalize := apply_scaler unscale_row.

(** _bestInScaling, lines 904-940.  [prefers] is the comparison of skewness of values and logarithms.  With a class, the array compared is not a column. *)
Definition in_scale_one (prefers : list fl -> bool) (grid : list grun) (n : nat) (klass : option string) : list string :=
  map (fun i => let dim := match klass with None => column i (map g_in grid) | Some c => concat (map g_in (filter (fun r => String.eqb (g_c r) c) grid)) end in
                if prefers dim then "min_max" else "log_min_max") (seq 0 n).
Definition best_in_scaling (prefers : list fl -> bool) (grid : list grun) (n : nat) (classes : option (list string)) : scaling :=
  let all := in_scale_one prefers grid n None in
  match classes with None => Uniform all all | Some cs => ByClass (map (fun c => (c, in_scale_one prefers grid n (Some c))) cs) all end.

(** ** Filling of missing values, _fillNans, lines 1038-1060, one column of the used runs: (inputs, value).  [nn1] is the value of the nearest of some points. *)
Definition fill_column (nn1 : list (row * fl) -> row -> fl) (col : list (row * fl)) : list (row * fl) * bool :=
  if existsb (fun p => is_nan (snd p)) col then
    let donors := filter (fun p => negb (is_nan (snd p))) col in
    match donors with
    | [] => (map (fun p => (fst p, if is_nan (snd p) then Some 0 else snd p)) col, true)
    | _ => (map (fun p => (fst p, if is_nan (snd p) then nn1 donors (fst p) else snd p)) col, false)
    end
  else (col, false).

(** ** Cross validation, xval_indices, lines 1576-1610.  [nt] gives the number of training samples out of that of samples, [perm] the result of shuffling. *)
Definition xval (nt : nat -> nat) (perm : list nat -> list nat) (N : nat) : list nat * list nat :=
  let indices := perm (seq 0 N) in (firstn (nt N) indices, skipn (nt N) indices).
Definition with_label (labels : list string) (l : string) : list nat := map fst (filter (fun p => String.eqb (snd p) l) (combine (seq 0 (length labels)) labels)).
(** [uniq] is np.unique(labels). *)
Definition xval_labels (nt : nat -> nat) (perm perm' : list nat -> list nat) (labels uniq : list string) : list nat * list nat :=
  let parts := map (fun l => let ind := with_label labels l in (firstn (nt (length ind)) ind, skipn (nt (length ind)) ind)) uniq in
  (perm (concat (map fst parts)), perm' (concat (map snd parts))).

Section Learned.
  Variable knn : list (row * string) -> row -> string.
  Variable nn : list (row * row) -> row -> row.
  Variable lin : list (row * row) -> row -> row.
  Variable sanitize : list string -> row -> row.

  (** interp_method: a string, or a list with interp_classes (lists of classes are left out). *)
  Inductive how := Single (m : string) | Each (l : list (string * string)).
  Definition per_class (h : how) : bool := match h with Single _ => false | Each _ => true end.
  Record params := Params { p_how : how; p_class_method : string; p_in_scaling : scaling; p_out_scaling : scaling; p_out_keys : list string; p_nan_keys : list string; p_in_q : bool; p_n_in : nat }.

  Record trained := Trained { t_params : params; t_in : scalers; t_out : scalers; t_data : list (row * row * string); t_classifier : option (row -> string) }.

  (** KNNClassifier and Lin/NNInterpolator, lines 1062-1299, 1378-1415.  predict of LinInterpolator takes the nearest run where the interpolation is NaN, and then
      asks the given scaler for the distance (lines 1190-1204): without one this is an AttributeError. *)
  Definition predict1 (m : string) (T : list (row * row)) (with_scaler : bool) (x : row) : result row :=
    if String.eqb m "linear" then
      let y := lin T x in
      if is_nan (hd None y) then (if with_scaler then Ok (nn T x) else Raise AttributeError) else Ok y
    else if String.eqb m "1NN" then Ok (nn T x)
    else Raise AttributeError.
  (** MC_Interpolator.predict, lines 1273-1299 *)
  Fixpoint predict_each (l : list (string * string)) (data : list (row * row * string)) (c : string) (x : row) (acc : row) : result row :=
    match l with
    | [] => Ok acc
    | (k, m) :: l' => rbind (if String.eqb k c then predict1 m (map fst (filter (fun d => String.eqb (snd d) k) data)) true x else Ok acc) (predict_each l' data c x)
    end.

  (** The end of __init__, lines 522-547, train_classifier 742-773 (for c_key) and train_interpolator 654-679.  The class method must be kNN or 1NN; in the classifier
      the number of neighbours is part of [knn].  An unknown method of a class is an AttributeError, an unknown single method leaves no interpolator. *)
  Definition train (p : params) (grid : list grun) : result trained :=
    let u := used (p_in_q p) grid in let k := kept (p_in_q p) grid in
    rbind (build_scaler (p_in_scaling p) (p_n_in p) (map g_in k) (map g_c u)) (fun sx =>
    rbind (build_scaler (p_out_scaling p) (length (p_out_keys p)) (map g_out u) (map g_c u)) (fun sy =>
    rbind (if existsb (fun r => negb (String.eqb (g_c r) "None")) k then
             if String.eqb (p_class_method p) "kNN" || String.eqb (p_class_method p) "1NN" then
               rbind (mapm (fun r => normalize sx None (g_in r)) k) (fun xs => Ok (Some (knn (combine xs (map g_c k)))))
             else Raise ValueError
           else Ok None) (fun cl =>
    rbind (mapm (fun r => let c := if per_class (p_how p) then Some (g_c r) else None in
                          rbind (normalize sx c (g_in r)) (fun x => rbind (normalize sy c (g_out r)) (fun y => Ok (x, y, g_c r)))) u) (fun data =>
    match p_how p with
    | Each l => match cl with
                | None => Raise AttributeError                              (* classifier.D of None *)
                | Some _ => if forallb (fun q => inb (snd q) ["linear"; "1NN"]) l then Ok (Trained p sx sy data cl) else Raise AttributeError
                end
    | Single _ => Ok (Trained p sx sy data cl)
    end)))).

  (** test_classifier, lines 775-792, and test_interpolator, lines 681-712 *)
  Definition classify (t : trained) (x : row) : result string :=
    rbind (normalize (t_in t) None x) (fun xn => match t_classifier t with Some f => Ok (f xn) | None => Raise AttributeError end).
  Definition predict (t : trained) (c : string) (x : row) : result row :=
    match p_how (t_params t) with
    | Each l => rbind (normalize (t_in t) (Some c) x) (fun xn =>
                predict_each l (t_data t) c xn (repeat None (length (p_out_keys (t_params t)))))
    | Single m => rbind (normalize (t_in t) None x) (fun xn => predict1 m (map fst (t_data t)) false xn)
    end.
  Definition test_interpolator (t : trained) (x : row) : result row :=
    rbind (classify t x) (fun c => rbind (predict t c x) (fun y => rbind (denormalize (t_out t) (Some c) y) (fun y =>
    Ok (sanitize (p_out_keys (t_params t)) y)))).
  (** evaluate_mat, lines 815-844, and evaluate, lines 846-877; of the classes only that by c_key *)
  Definition is_minus_100 (v : fl) : bool := match v with Some a => if Req_EM_T a (-100) then true else false | None => false end.
  Definition evaluate (t : trained) (x : row) : result (list (string * fl) * string) :=
    if negb (Nat.eqb (length x) (p_n_in (t_params t))) then Raise ValueError
    else
      rbind (test_interpolator t x) (fun y => rbind (classify t x) (fun c =>
      let y := if negb (String.eqb (p_class_method (t_params t)) "1NN") && String.eqb c "initial_MT" then map (fun _ => None) y else y in
      let y := match p_how (t_params t) with Single "1NN" => map (fun v => if is_minus_100 v then None else v) y | _ => y end in
      Ok (dset_all String.eqb (dset_all String.eqb [] (combine (p_out_keys (t_params t)) y)) (map (fun k => (k, None)) (p_nan_keys (t_params t))), c))).
End Learned.

(** ** IFInterpolator, lines 206-285: the check of output keys, and the union of results *)
Fixpoint add_keys (seen : list string) (l : list string) : result (list string) :=
  match l with [] => Ok seen | k :: l' => if inb k seen then Raise ValueError else add_keys (seen ++ [k]) l' end.
Fixpoint check_keys (several : bool) (seen : list string) (l : list (option (list string))) : result unit :=
  match l with
  | [] => Ok tt
  | None :: l' => if several then Raise ValueError else check_keys several seen l'
  | Some ks :: l' => rbind (add_keys seen ks) (fun seen' => check_keys several seen' l')
  end.
Definition construct_check (l : list (option (list string))) : result unit := check_keys (Nat.ltb 1 (length l)) [] l.
Definition union (ds : list (list (string * fl))) : list (string * fl) := fold_left (dset_all String.eqb) ds [].
