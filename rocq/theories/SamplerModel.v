(** Random numbers and the generic samplers of posydon/utils/common_functions.py.

    A numpy Generator is an arbitrary state machine [next] giving one raw number at a time;
    [scale lo hi u] is the value numpy makes of the raw number [u] for uniform(lo, hi).
    Both are parameters, so every statement holds for all random streams and all roundings.
    numpy draws the numbers of one vectorised call one after another. *)
From Coq Require Import String List ZArith QArith Bool Lia.
From Verif Require Import PyBase.
Import ListNotations.
Open Scope nat_scope.

(** The exception of a failing assert statement. *)
Definition assertion_error : exn := OtherError "AssertionError".

(** A numpy array of dimension 0 or 1. *)
Inductive shaped := Scalar (x : Q) | Array (l : list Q).

Section Rng.
  Variable G : Type.
  Variable next : G -> Q * G.
  Variable scale : Q -> Q -> Q -> Q.

  (** The state after [k] raw numbers have been taken. *)
  Fixpoint skip (k : nat) (g : G) : G :=
    match k with O => g | S k' => skip k' (snd (next g)) end.

  (** rng.random(size=n): n raw numbers. *)
  Fixpoint raws (n : nat) (g : G) : list Q * G :=
    match n with
    | O => ([], g)
    | S n' => let '(u, g1) := next g in
              let '(us, g2) := raws n' g1 in (u :: us, g2)
    end.

  (** rng.uniform(lo, hi, size=n). *)
  Definition uniform (lo hi : Q) (n : nat) (g : G) : list Q * G :=
    let '(us, g1) := raws n g in (map (scale lo hi) us, g1).

  (** x_rand[y_rand <= pdf(x_rand)]: the x for which the test holds, in order. *)
  Definition accepted (pdf : Q -> Q) (xs ys : list Q) : list Q :=
    map fst (filter (fun p => Qle_bool (snd p) (pdf (fst p))) (combine xs ys)).

  (** The loop "while values.shape[0] < size" of rejection_sampler,
      posydon/utils/common_functions.py:713-717 and 726-730 (both branches have the same
      loop).  [fuel] bounds the number of rounds; [None] means still running. *)
  Fixpoint refill (fuel : nat) (pdf : Q -> Q) (lo hi top : Q) (size : nat)
      (values : list Q) (g : G) : option (list Q * G) :=
    if size <=? length values then Some (values, g)
    else match fuel with
         | O => None
         | S f =>
             let n := size - length values in
             let '(xs, g1) := uniform lo hi n g in
             let '(ys, g2) := uniform 0 top n g1 in
             refill f pdf lo hi top size (values ++ accepted pdf xs ys) g2
         end.

  (** np.max / max of a non-empty list of numbers. *)
  Fixpoint qmax_list (x : Q) (l : list Q) : Q :=
    match l with [] => x | y :: l' => qmax_list (if Qle_bool x y then y else x) l' end.
  Fixpoint qmin_list (x : Q) (l : list Q) : Q :=
    match l with [] => x | y :: l' => qmin_list (if Qle_bool y x then y else x) l' end.

  (** rejection_sampler with a density function, common_functions.py:718-730: the x are
      drawn first, then 50000 numbers to look for the maximum of the density, then the y.
      [probes] stands for the literal 50000 (a parameter only so that examples can be
      computed; [rejection_sampler] fixes it). *)
  Definition rejection_pdf (fuel probes : nat) (pdf : Q -> Q) (lo hi : Q) (size : nat) (g : G)
    : option (result (list Q * G)) :=
    let '(xs, g1) := uniform lo hi size g in
    let '(ps, g2) := uniform lo hi probes g1 in
    match map pdf ps with
    | [] => Some (Raise ValueError)                (* max of an empty sequence *)
    | p :: rest =>
        let top := qmax_list p rest in
        let '(ys, g3) := uniform 0 top size g2 in
        match refill fuel pdf lo hi top size (accepted pdf xs ys) g3 with
        | Some r => Some (Ok r)
        | None => None
        end
    end.

  (** rejection_sampler with tabulated values, common_functions.py:697-717.  [pdf] is the
      interpolating function that interp1d builds from x and y (not modelled here). *)
  Definition rejection_xy (fuel : nat) (pdf : Q -> Q) (xs ys : list Q) (size : nat) (g : G)
    : option (result (list Q * G)) :=
    if negb (forallb (fun y => Qle_bool 0 y) ys) then Some (Raise assertion_error)
    else match xs, ys with
    | x :: xs', y :: ys' =>
        let lo := qmin_list x xs' in
        let hi := qmax_list x xs' in
        let top := qmax_list y ys' in
        let '(xr, g1) := uniform lo hi size g in
        let '(yr, g2) := uniform 0 top size g1 in
        match refill fuel pdf lo hi top size (accepted pdf xr yr) g2 with
        | Some r => Some (Ok r)
        | None => None
        end
    | _, _ => Some (Raise ValueError)
    end.

  (** The argument checks of rejection_sampler, common_functions.py:695-700 and 719-721. *)
  Definition rejection_sampler (fuel : nat) (xy : option (list Q * list Q)) (interp : Q -> Q)
      (x_lim : option (Q * Q)) (pdf : option (Q -> Q)) (size : nat) (g : G)
    : option (result (list Q * G)) :=
    match pdf with
    | None => match xy with
              | None => Some (Raise ValueError)
              | Some (x, y) => rejection_xy fuel interp x y size g
              end
    | Some f => match x_lim with
                | None => Some (Raise ValueError)
                | Some (lo, hi) => rejection_pdf fuel (50 * 1000) f lo hi size g
                end
    end.

  (** rng.choice(n, replace=True, p=p, size=size) of numpy: the cumulative sum of p divided
      by its last entry, and for every raw number the first index whose entry exceeds it
      (searchsorted with side='right').  With p = y/sum(y) this is the first index where the
      cumulative sum of y exceeds u*sum(y); the model uses that form, i.e. exact arithmetic
      for the normalisation. *)
  Fixpoint pick (acc : Q) (target : Q) (i : nat) (ys : list Q) : nat :=
    match ys with
    | [] => i
    | y :: ys' => if negb (Qle_bool (acc + y) target) then i
                  else pick (acc + y) target (S i) ys'
    end.

  Definition qsum (l : list Q) : Q := fold_right Qplus 0%Q l.

  Definition choice (ys : list Q) (n : nat) (g : G) : list nat * G :=
    let '(us, g1) := raws n g in
    (map (fun u => pick 0 (u * qsum ys) 0 ys) us, g1).

  (** sample[in_this_bin] = vals, where in_this_bin are the positions holding bin [b]. *)
  Fixpoint fill_bin (b : nat) (bins : list nat) (sample : list (option Q)) (vals : list Q)
    : list (option Q) :=
    match bins, sample with
    | c :: bins', s :: sample' =>
        if Nat.eqb c b then
          match vals with
          | v :: vals' => Some v :: fill_bin b bins' sample' vals'
          | [] => s :: fill_bin b bins' sample' []
          end
        else s :: fill_bin b bins' sample' vals
    | _, _ => sample
    end.

  (** The loop over the bins that occur, common_functions.py:831-834. *)
  Fixpoint fill_bins (edges : list Q) (order : list nat) (bins : list nat)
      (sample : list (option Q)) (g : G) : result (list (option Q) * G) :=
    match order with
    | [] => Ok (sample, g)
    | b :: order' =>
        match nth_error edges b, nth_error edges (S b) with
        | Some lo, Some hi =>
            let '(vs, g1) := uniform lo hi (count_occ Nat.eq_dec bins b) g in
            fill_bins edges order' bins (fill_bin b bins sample vs) g1
        | _, _ => Raise IndexError
        end
    end.

  Fixpoint all_some (l : list (option Q)) : option (list Q) :=
    match l with
    | [] => Some []
    | Some x :: l' => match all_some l' with Some r => Some (x :: r) | None => None end
    | None :: _ => None
    end.

  (** np.squeeze of a one-dimensional array: one value becomes a 0-dimensional array. *)
  Definition squeeze (l : list Q) : shaped := match l with [x] => Scalar x | _ => Array l end.

  (** histogram_sampler, common_functions.py:797-837.  [order] gives the iteration order of
      the Python set of the bins that occur (any order; a parameter). *)
  Definition histogram_sampler (order : list nat -> list nat) (edges ys : list Q) (size : nat)
      (g : G) : result (shaped * G) :=
    if negb (forallb (fun y => Qle_bool 0 y) ys) then Raise assertion_error
    else if negb ((0 <? length ys) && (length edges =? length ys + 1)) then Raise assertion_error
    else if Qeq_bool (qsum ys) 0 then Raise ValueError       (* probabilities are NaN *)
    else
      let '(bins, g1) := choice ys size g in
      match fill_bins edges (order bins) bins (repeat None size) g1 with
      | Raise e => Raise e
      | Ok (sample, g2) =>
          match all_some sample with
          | Some r => Ok (squeeze r, g2)
          | None => Raise assertion_error
          end
      end.
End Rng.
