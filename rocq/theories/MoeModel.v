(** Model of the sampling of binaries after Moe & Di Stefano (2017), posydon/popsyn/Moes_distributions.py.

    Real arithmetic.  The tables of the class are functions here of the mass of the primary and the logarithm of the period at their supporting points.  Where the
    code would divide by the zero maximum of a table and get NaN, the quotient is 0 here; theorems say when it is not. *)
From Coq Require Import String List Bool Reals Arith.
From Verif Require Import PyBase.
Import ListNotations.
Open Scope string_scope.
Open Scope R_scope.
Open Scope list_scope.

Definition lg (x : R) : R := ln x / ln 10.
Definition pow10 (x : R) : R := Rpower 10 x.
(** np.interp(x, xp, fp) with the points (xp, fp), at least one *)
Fixpoint interp (x : R) (pts : list (R * R)) : R :=
  match pts with
  | [] => 0
  | [(_, f)] => f
  | (a, f) :: (((b, g) :: _) as pts') => if Rlt_dec x b then (if Rlt_dec x a then f else (g - f) / (b - a) * (x - a) + f) else interp x pts'
  end.
Definition linspace (a b : R) (n : nat) : list R := map (fun i => a + INR i * ((b - a) / (INR n - 1))) (seq 0 n).

(** _idl_tabulate, lines 38-91, with p = 5, for points at equal distances dx: the weights of Newton and Cotes of chunks of five values and of a smaller rest *)
Fixpoint idl_tabulate (dx : R) (f : list R) : R :=
  match f with
  | a :: b :: c :: d :: ((e :: _) as f') => dx * (2 / 45 * (7 * a + 32 * b + 12 * c + 32 * d + 7 * e)) + idl_tabulate dx f'
  | [a; b; c; d] => dx * (3 / 8 * (a + 3 * b + 3 * c + d))
  | [a; b; c] => dx * (1 / 3 * (a + 4 * b + c))
  | [a; b] => dx * (1 / 2 * (a + b))
  | _ => 0
  end.

(** ** Slopes and frequencies, lines 170-369 (sections 9.1 to 9.4 of the article) *)
Definition ftwin_short (M : R) : R := 0.3 - 0.15 * lg M.
Definition logPtwin (M : R) : R := if Rle_dec 6.5 M then 1.5 else 8.0 - M.
Definition ftwin (M P : R) : R :=
  if Rle_dec (logPtwin M) P then 0 else if Rle_dec P 1 then ftwin_short M else ftwin_short M * (1 - (P - 1) / (logPtwin M - 1)).
Definition gl_1p2 (P : R) : R := if Rlt_dec P 5 then -0.5 else -0.5 - 0.3 * (P - 5).
Definition gl_3p5 (P : R) : R := if Rle_dec P 1 then -0.5 else if Rle_dec P 4.5 then -0.5 - 0.2 * (P - 1) else if Rle_dec P 6.5 then -1.2 - 0.4 * (P - 4.5) else -2.0.
Definition gl_6 (P : R) : R := if Rle_dec P 1 then -0.5 else if Rle_dec P 2 then -0.5 - 0.9 * (P - 1) else if Rle_dec P 4 then -1.4 - 0.3 * (P - 2) else -2.0.
Definition by_mass (m1 m2 m3 : R) (f1 f2 f3 : R) (M : R) : R :=
  if Rle_dec M m1 then f1 else if Rle_dec M m2 then interp (lg M) [(lg m1, f1); (lg m2, f2)] else if Rle_dec M m3 then interp (lg M) [(lg m2, f2); (lg m3, f3)] else f3.
Definition gamma_large (M P : R) : R := by_mass 1.2 3.5 6 (gl_1p2 P) (gl_3p5 P) (gl_6 P) M.
Definition gs_3p5 (P : R) : R := if Rle_dec P 2.5 then 0.2 else if Rle_dec P 5.5 then 0.2 - 0.3 * (P - 2.5) else -0.7 - 0.2 * (P - 5.5).
Definition gs_6 (P : R) : R := if Rle_dec P 1 then 0.1 else if Rle_dec P 3 then 0.1 - 0.15 * (P - 1) else if Rle_dec P 5.6 then -0.2 - 0.5 * (P - 3) else -1.5.
Definition gamma_small (M P : R) : R := by_mass 1.2 3.5 6 0.3 (gs_3p5 P) (gs_6 P) M.
Definition eta_3 (P : R) : R := if Rle_dec 0.7 P then 0.6 - 0.7 / (P - 0.5) else -2.9.
Definition eta_7 (P : R) : R := if Rle_dec 0.7 P then 0.9 - 0.2 / (P - 0.5) else -0.1.
Definition eta (M P : R) : R :=
  if Rle_dec M 3 then eta_3 P else if Rle_dec M 7 then interp (lg M) [(lg 3, eta_3 P); (lg 7, eta_7 P)] else eta_7 P.
Definition f_short (M : R) : R := 0.020 + 0.04 * lg M + 0.07 * lg M ^ 2.
Definition f_2p7 (M : R) : R := 0.039 + 0.07 * lg M + 0.01 * lg M ^ 2.
Definition f_5p5 (M : R) : R := 0.078 - 0.05 * lg M + 0.04 * lg M ^ 2.
Definition flogP (M P : R) : R :=
  if Rle_dec P 1 then f_short M
  else if Rle_dec P 2 then f_short M + (f_2p7 M - f_short M - 0.018 * 0.7) * (P - 1) / (1.7 - 0.7)
  else if Rle_dec P 3.4 then f_2p7 M + 0.018 * (P - 2.7)
  else if Rle_dec P 5.5 then f_2p7 M + 0.018 * 0.7 + (f_5p5 M - f_2p7 M - 0.018 * 0.7) * (P - 2.7 - 0.7) / (2.8 - 0.7)
  else f_5p5 M * exp (- 0.3 * (P - 5.5)).
Definition probbin (M P : R) : R :=
  let p := if Rle_dec P 1.5 then 1 else 1 - 0.11 * Rpower (P - 1.5) 1.43 * Rpower (M / 10) 0.56 in if Rle_dec p 0 then 0 else p.

(** ** Tables *)
Fixpoint cumsum_from (acc : R) (l : list R) : list R := match l with [] => [] | x :: l' => (acc + x) :: cumsum_from (acc + x) l' end.
Definition rmax (l : list R) : R := match l with [] => 0 | x :: l' => fold_left Rmax l' x end.
(** np.cumsum(f) - f[0], lines 274, 335 and 372 *)
Definition cumulative (f : list R) : list R := map (fun c => c - hd 0 f) (cumsum_from 0 f).
Definition normalised_to (total : R) (c : list R) : list R := map (fun x => x / rmax c * total) c.

Record points := Points { M1v : list R; logPv : list R; qv : list R; ev : list R }.
Definition step_of (l : list R) : R := nth 1 l 0 - nth 0 l 0.
(** __init__, lines 117-128 *)
Definition make_points (n_M1 n_logP n_q n_e : nat) (p_min p_max : R) : points :=
  Points (map pow10 (linspace (lg 0.8) (lg 40) n_M1)) (linspace (lg p_min) (lg p_max) n_logP) (linspace 0.1 1 n_q) (map (Rplus 0.0001) (linspace 0 0.99 n_e)).

(** Mass ratios, lines 157-163 and 262-279 *)
Definition heaviside (q : R) : R := if Rle_dec 0.95 q then 1 else 0.
Definition large_q (qs : list R) : list R := filter (fun q => if Rle_dec 0.3 q then true else false) qs.
Definition fq_large (qs : list R) (M P q : R) : R :=
  Rpower q (gamma_large M P) / idl_tabulate (step_of qs) (map (fun q => Rpower q (gamma_large M P)) (large_q qs)) * (1 - ftwin M P)
  + heaviside q / idl_tabulate (step_of qs) (map heaviside qs) * ftwin M P.
Definition fq (qs : list R) (M P q : R) : R :=
  if Rlt_dec q 0.3 then fq_large qs M P (hd 0 (large_q qs)) * Rpower (q / 0.3) (gamma_small M P) else fq_large qs M P q.
Definition cumq (pts : points) (M P : R) : list R := normalised_to 1 (cumulative (map (fq (qv pts) M P) (qv pts))).
Definition q_factor (pts : points) (M P : R) : R := idl_tabulate (step_of (qv pts)) (map (fq (qv pts) M P) (qv pts)).

(** Eccentricities, lines 304-339 *)
Definition e_max (P : R) : R := 1 - Rpower (pow10 P / 2) (-(2) / 3).
Definition turnover (P e : R) : bool := if Rle_dec (0.8 * e_max P) e then (if Rle_dec e (e_max P) then true else false) else false.
Fixpoint first_index (f : R -> bool) (i : nat) (l : list R) : option nat := match l with [] => None | x :: l' => if f x then Some i else first_index f (S i) l' end.
Definition fe_cut (M P e : R) : R := if Rle_dec (e_max P) e then 0 else Rpower e (eta M P).
Definition fe_list (es : list R) (M P : R) : result (list R) :=
  if Rle_dec (pow10 P) 2 then Ok (map (fun e => Rpower e (-3.2)) es)
  else match first_index (turnover P) 0 es with
       | None => Raise ValueError                                              (* np.min of nothing *)
       | Some k => let cont := match k with O => last es 0 | S k' => nth k' es 0 end in                (* index -1 is the last one *)
                   Ok (map (fun e => if turnover P e then interp e [(0.8 * e_max P, fe_cut M P cont); (e_max P, 0)] else fe_cut M P e) es)
       end.
Definition cume (pts : points) (M P : R) : result (list R) := rbind (fe_list (ev pts) M P) (fun f => Ok (normalised_to 1 (cumulative f))).

(** The constructor makes the tables of all supporting points and fails if one cannot be made. *)
Definition constructor (pts : points) : result points :=
  if forallb (fun M => forallb (fun P => match cume pts M P with Ok _ => true | Raise _ => false end) (logPv pts)) (M1v pts) then Ok pts else Raise ValueError.

(** Periods, lines 371-382 *)
Definition fP (pts : points) (M P : R) : R := flogP M P * q_factor pts M P * probbin M P.
Definition cumP (pts : points) (M : R) : list R :=
  normalised_to (idl_tabulate (step_of (logPv pts)) (map (fP pts M) (logPv pts))) (cumulative (map (fP pts M) (logPv pts))).

(** ** __call__, lines 393-474, for one primary; [u] are the random numbers drawn one after the other.  None for single stars (NaN in the code).  The last component
    is the number of those drawn. *)
Fixpoint nearest_from (x : R) (best : R) (l : list R) : R := match l with [] => best | y :: l' => if Rlt_dec (Rabs (x - y)) (Rabs (x - best)) then nearest_from x y l' else nearest_from x best l' end.
Definition nearest (x : R) (l : list R) : R := match l with [] => 0 | y :: l' => nearest_from x y l' end.
Definition metallicity (u : R) : R := 0.02 * pow10 (-2.3 + (0.176 - -2.3) * u).
Definition scaled_cumP (pts : points) (M1 M_min : R) : list R :=
  let c := cumP pts (nearest M1 (M1v pts)) in if Rle_dec M1 0.8 then map (fun x => x * interp (lg M1) [(lg M_min, 0); (lg 0.8, 1)]) c else c.
Definition truncated_cumq (pts : points) (M1 M_min : R) (c : list R) : list R :=
  if Rlt_dec M1 0.8 then
    let q_min := M_min / M1 in
    let c := map (fun x => x - interp q_min (combine (qv pts) c)) c in
    map (fun p => if Rle_dec (fst p) q_min then 0 else snd p) (combine (qv pts) (map (fun x => x / rmax c) c))
  else c.
Definition sample (pts : points) (all_binaries : bool) (M_min M1 : R) (u : nat -> R) : result (option (R * R * R) * R * nat) :=
  let c := scaled_cumP pts M1 M_min in
  let binfrac := if all_binaries then 1 else rmax c in
  if Rlt_dec (u 0%nat) binfrac then
    let logP := interp (u 0%nat) (combine c (logPv pts)) in
    let gP := nearest logP (logPv pts) in let gM := nearest M1 (M1v pts) in
    rbind (cume pts gM gP) (fun ce =>
    let e := interp (u 1%nat) (combine ce (ev pts)) in
    let q := interp (u 2%nat) (combine (truncated_cumq pts M1 M_min (cumq pts gM gP)) (qv pts)) in
    Ok (Some (M1 * q, pow10 logP, e), metallicity (u 3%nat), 4%nat))
  else Ok (None, metallicity (u 1%nat), 2%nat).
