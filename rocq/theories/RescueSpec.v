(** How batch systems and shells read scripts: directives, exported variables, arrays of jobs, dependencies. *)
From Coq Require Import String Ascii List Bool Arith.
From Coq Require Import DecimalString.
Import ListNotations.
Open Scope list_scope.
Open Scope string_scope.

(** The parts of a text between the occurrences of a character. *)
Fixpoint cut (c : ascii) (s : string) : list string :=
  match s with
  | EmptyString => [""]
  | String x r => if Ascii.eqb x c then "" :: cut c r
                  else match cut c r with [] => [String x ""] | p :: ps => String x p :: ps end
  end.
Definition lines (text : string) : list string := cut "010"%char text.
(** What follows the beginning [p] of [s]. *)
Fixpoint after (p s : string) : option string :=
  match p, s with
  | EmptyString, _ => Some s
  | String a p', String b s' => if Ascii.eqb a b then after p' s' else None
  | _, EmptyString => None
  end.
Fixpoint first_after (p : string) (l : list string) : option string :=
  match l with [] => None | x :: r => match after p x with Some v => Some v | None => first_after p r end end.
Fixpoint last_after (p : string) (l : list string) : option string :=
  match l with [] => None | x :: r => match last_after p r with Some v => Some v | None => after p x end end.
(** The directive [--name=...] for the batch system, and the variable [name] as exported by the script. *)
Definition directive (name text : string) : option string := first_after ("#SBATCH --" ++ name ++ "=") (lines text).
Definition exported (name text : string) : option string := last_after ("export " ++ name ++ "=") (lines text).

(** Decimal numbers *)
Definition number (s : string) : option nat := option_map Nat.of_uint (NilZero.uint_of_string s).
(** Arrays of jobs: [2,5,7-9%4] are jobs 2, 5, 7, 8 and 9, four at a time. *)
Definition element (s : string) : option (list nat) :=
  match cut "-"%char s with
  | [a] => match number a with Some x => Some [x] | None => None end
  | [a; b] => match number a, number b with Some x, Some y => Some (seq x (y + 1 - x)) | _, _ => None end
  | _ => None
  end.
Fixpoint elements (l : list string) : option (list nat) :=
  match l with
  | [] => Some []
  | x :: r => match element x, elements r with Some a, Some b => Some (a ++ b)%list | _, _ => None end
  end.
Definition array (s : string) : option (list nat * option nat) :=
  match cut "%"%char s with
  | [a] => match elements (cut ","%char a) with Some l => Some (l, None) | None => None end
  | [a; b] => match elements (cut ","%char a), number b with Some l, Some k => Some (l, Some k) | _, _ => None end
  | _ => None
  end.
(** The jobs of a script and how many may run at once. *)
Definition jobs (text : string) : option (list nat * option nat) :=
  match directive "array" text with Some v => array v | None => None end.

(** The part of the work which job [i] of a script does: it takes the place [i - MIN] of [COUNT] ones, where the
    batch system sets MIN to the smallest job and COUNT to the number of jobs unless the script exports its own. *)
Definition place (text : string) (i : nat) : option (nat * nat) :=
  match jobs text with
  | Some (x :: l, _) =>
    match match exported "SLURM_ARRAY_TASK_MIN" text with Some v => number v | None => Some (fold_right Nat.min x l) end,
          match exported "SLURM_ARRAY_TASK_COUNT" text with Some v => number v | None => Some (length (x :: l)) end with
    | Some m, Some n => if existsb (Nat.eqb i) (x :: l) then Some (i - m, n) else None
    | _, _ => None
    end
  | _ => None
  end.

(** ** Scripts submitting jobs *)

(** What is before and after the first occurrence of [sep]. *)
Fixpoint around (sep s : string) : option (string * string) :=
  match after sep s with
  | Some r => Some ("", r)
  | None => match s with
            | EmptyString => None
            | String c r => match around sep r with Some (a, b) => Some (String c a, b) | None => None end
            end
  end.
Fixpoint lookup (v : string) (env : list (string * nat)) : option nat :=
  match env with [] => None | (w, n) :: r => if String.eqb v w then Some n else lookup v r end.
(** [v=$(sbatch --parsable script)] submits a script, [v=$(sbatch --parsable --dependency=afterok:${u}
    --kill-on-invalid-dep=yes script)] one which starts after the job of [u] has succeeded.  A submitted job is its
    script with the number of the job it waits for. *)
Definition submission (line : string) : option (string * option string * string) :=
  match around "=$(sbatch --parsable " line with
  | None => None
  | Some (v, rest) =>
    match after "--dependency=afterok:${" rest with
    | Some r => match around "} --kill-on-invalid-dep=yes " r with
                | Some (u, r') => match around ")" r' with Some (s, "") => Some (v, Some u, s) | _ => None end
                | None => None
                end
    | None => match around ")" rest with Some (s, "") => Some (v, None, s) | _ => None end
    end
  end.
Fixpoint submits (ls : list string) (env : list (string * nat)) (n : nat) : list (string * option (option nat)) :=
  match ls with
  | [] => []
  | x :: r =>
    match submission x with
    | Some (v, u, s) => (s, option_map (fun w => lookup w env) u) :: submits r ((v, n) :: env) (S n)
    | None => submits r env n
    end
  end.
Definition submitted (text : string) : list (string * option (option nat)) := submits (lines text) [] 0.
