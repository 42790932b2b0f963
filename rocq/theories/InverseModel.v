(** inverse_sampler of posydon/utils/common_functions.py:734-794, in real arithmetic. *)
From Coq Require Import List Reals Bool.
From Verif Require Import PyBase SamplerModel.
Import ListNotations.
Open Scope R_scope.

(** np.all(np.diff(x) > 0) *)
Fixpoint increasingb (x : list R) : bool :=
  match x with
  | a :: ((b :: _) as l) => (if Rlt_dec a b then true else false) && increasingb l
  | _ => true
  end.

(** np.all(y >= 0.0) *)
Definition nonnegb (y : list R) : bool := forallb (fun v => if Rle_dec 0 v then true else false) y.

(** 0.5 * (y[1:]+y[:-1]) * (x[1:]-x[:-1]) *)
Fixpoint segment_areas (x y : list R) : list R :=
  match x, y with
  | a :: ((b :: _) as x'), c :: ((d :: _) as y') =>
      (1/2 * (d + c) * (b - a)) :: segment_areas x' y'
  | _, _ => []
  end.

(** np.cumsum *)
Fixpoint cumsum (acc : R) (l : list R) : list R :=
  match l with [] => [] | a :: l' => (acc + a) :: cumsum (acc + a) l' end.

(** np.searchsorted(l, v): the first index with v <= l[i] (side 'left', sorted array). *)
Fixpoint searchsorted (l : list R) (v : R) : nat :=
  match l with
  | [] => O
  | a :: l' => if Rle_dec v a then O else S (searchsorted l' v)
  end.

Section Inverse.
  Variable G : Type.
  Variable next : G -> R * G.

  Fixpoint raws_r (n : nat) (g : G) : list R * G :=
    match n with
    | O => ([], g)
    | S n' => let '(u, g1) := next g in
              let '(us, g2) := raws_r n' g1 in (u :: us, g2)
    end.

  (** The value for one random number before the treatment of undefined ones: [inl s] a
      sample, [inr (x_i, dx)] when the cap of the bin is flat (dy = 0), where the numpy
      expression is 0/0 = NaN.  Index errors as in numpy.  In real arithmetic the expression
      under the root is never negative (part of the proof); with rounding it could be, which
      the code answers with a failing assert. *)
  Definition one_value (x y cum : list R) (total u : R) : result (R + R * R) :=
    let i := searchsorted cum (u * total) in
    match nth_error x i, nth_error x (S i), nth_error y i, nth_error y (S i) with
    | Some x0, Some x1, Some y0, Some y1 =>
        let delta := match i with
                     | O => total * u
                     | S j => total * u - nth j cum 0
                     end in
        let dx := x1 - x0 in
        let dy := y1 - y0 in
        if Req_EM_T dy 0 then Ok (inr (x0, dx))
        else Ok (inl (x0 + dx * (sqrt (y0 ^ 2 + 2 * delta * dy / dx) - y0) / dy))
    | _, _, _, _ => Raise IndexError
    end.

  Fixpoint values (x y cum : list R) (total : R) (us : list R) : result (list (R + R * R)) :=
    match us with
    | [] => Ok []
    | u :: us' => rbind (one_value x y cum total u) (fun v =>
                  rbind (values x y cum total us') (fun vs => Ok (v :: vs)))
    end.

  Definition is_flat (v : R + R * R) : bool := match v with inl _ => false | inr _ => true end.

  (** sample[where_nan] = x_i + dx * rng.uniform(size=n_where_nan) *)
  Fixpoint fill_flat (vs : list (R + R * R)) (ws : list R) : list R :=
    match vs with
    | [] => []
    | inl s :: vs' => s :: fill_flat vs' ws
    | inr (x0, dx) :: vs' =>
        match ws with
        | w :: ws' => (x0 + dx * w) :: fill_flat vs' ws'
        | [] => x0 :: fill_flat vs' []         (* not reached: as many numbers as flat bins *)
        end
    end.

  Definition inverse_sampler (x y : list R) (size : nat) (g : G) : result (list R * G) :=
    if negb (increasingb x) then Raise assertion_error
    else if negb (nonnegb y) then Raise assertion_error
    else if negb (Nat.eqb (length x) (length y)) then Raise ValueError   (* shapes differ *)
    else
      let cum := cumsum 0 (segment_areas x y) in
      match rev cum with
      | [] => Raise IndexError                                          (* cumsum_areas[-1] *)
      | total :: _ =>
          let '(us, g1) := raws_r size g in
          rbind (values x y cum total us) (fun vs =>
            let '(ws, g2) := raws_r (length (filter is_flat vs)) g1 in
            Ok (fill_flat vs ws, g2))
      end.
End Inverse.
