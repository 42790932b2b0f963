(** get_formation_times, posydon/popsyn/star_formation_history.py:1063-1122, and
    read_histogram_from_file, posydon/utils/common_functions.py:840-884. *)
From Coq Require Import String Ascii List ZArith QArith Bool.
From Verif Require Import PyBase PyStr SamplerModel SampleModel.
Import ListNotations.
Open Scope string_scope.
Open Scope nat_scope.
Open Scope list_scope.

(** A line of the histogram file after strip(): empty, a comment, or numbers. *)
Inductive hist_line := Empty | Comment | Numbers (l : list Q).

(** The loop over the lines, common_functions.py:864-873: the check for a third line of
    numbers is made after appending it. *)
Fixpoint read_lines (arrays : list (list Q)) (lines : list hist_line) : result (list (list Q)) :=
  match lines with
  | [] => Ok arrays
  | Numbers l :: rest =>
      if 2 <? length (arrays ++ [l]) then Raise IndexError else read_lines (arrays ++ [l]) rest
  | _ :: rest => read_lines arrays rest
  end.

(** read_histogram_from_file, common_functions.py:840-884. *)
Definition read_histogram (lines : list hist_line) : result (list Q * list Q) :=
  rbind (read_lines [] lines) (fun arrays =>
    match arrays with
    | [x; y] => if Z.eqb (Z.of_nat (length x) - 1) (Z.of_nat (length y)) then Ok (x, y) else Raise IndexError
    | _ => Raise IndexError
    end).

Section Times.
  Variable G : Type.
  Variable next : G -> Q * G.
  Variable scale : Q -> Q -> Q -> Q.
  (** 10.0**x, the difference of floats, the iteration order of sets, and the interpolating
      function that scipy builds from a table. *)
  Variable pow10 : Q -> Q.
  Variable fsub : Q -> Q -> Q.
  Variable order : list nat -> list nat.
  Variable interp : list Q -> list Q -> Q -> Q.

  Record times_kw := TimesKw {
    t_burst : option Q;                       (* burst_time *)
    t_min : option Q;                         (* min_time *)
    t_max : option Q;                         (* max_time *)
    t_sim : option Q;                         (* max_simulation_time *)
    t_table : result (list Q * list Q);       (* np.loadtxt(custom_ages_file, unpack=True) *)
    t_lines : list hist_line                  (* the lines of custom_ages_file *)
  }.

  Definition dflt (x : option Q) (d : Q) : Q := match x with Some v => v | None => d end.
  Definition shaped_map (f : Q -> Q) (s : shaped) : shaped :=
    match s with Scalar x => Scalar (f x) | Array l => Array (map f l) end.

  (** age_of_universe is the only default that is not a literal. *)
  Variable age_of_universe : Q.

  Definition get_formation_times (fuel n : nat) (star_formation : string) (k : times_kw) (g : G)
    : run (shaped * G) :=
    let scenario := casefold_ascii star_formation in
    if String.eqb scenario "burst" then ret (Ok (Array (repeat (dflt (t_burst k) 0) n), g))
    else
    let max_time := dflt (t_max k) (dflt (t_sim k) age_of_universe) in
    if String.eqb scenario "constant" then
      let '(l, g1) := uniform G next scale (dflt (t_min k) 0) max_time n g in ret (Ok (Array l, g1))
    else if inb String.eqb scenario ["custom_linear"; "custom_log10"] then
      match t_table k with
      | Raise e => ret (Raise e)
      | Ok (x, y) =>
          do (l, g1) <- rejection_sampler G next scale fuel (Some (x, y)) (interp x y) None None n g;
          let ages := if py_in "log10" scenario then map pow10 l else l in
          ret (Ok (Array (map (fun a => fsub max_time a) ages), g1))
      end
    else if inb String.eqb scenario ["custom_linear_histogram"; "custom_log10_histogram"] then
      do (x, y) <- ret (read_histogram (t_lines k));
      do (s, g1) <- ret (histogram_sampler G next scale order x y 1 g);   (* size not passed on *)
      let ages := if py_in "log10" scenario then shaped_map pow10 s else s in
      ret (Ok (shaped_map (fun a => fsub max_time a) ages, g1))
    else ret (Raise ValueError).
End Times.
