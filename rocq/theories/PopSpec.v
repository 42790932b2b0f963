(** What evolving and saving a population is meant to do. *)
From Coq Require Import String List Bool ZArith QArith Permutation.
From Verif Require Import PyBase WarnModel WarnSpec PopModel.
Import ListNotations.
Local Open Scope string_scope.

(** ** Splitting *)
(** [parts] is [l] cut into [n] consecutive pieces whose sizes differ by at most one. *)
Definition fair_split {A} (l : list A) (n : nat) (parts : list (list A)) : Prop :=
  length parts = n /\ concat parts = l
  /\ forall p q, In p parts -> In q parts -> (length p <= length q + 1)%nat.

(** ** The life of binaries *)
Section Spec.
  Variables B G : Type.
  Variable b_index : B -> Z.
  Variable to_df : B -> result (list hrow).
  Variable to_oneline : B -> result orow.
  Variable gen : G -> Z -> G * result B.
  Variable evo : G -> B -> G * B * Z * list wcall * option exn.
  Variable fail : B -> exn -> B.
  Variable warned : B -> B.

  (** What becomes of a binary after evolution: failed if it raised, marked if it warned. *)
  Definition outcome (x : B) (calls : list wcall) (ex : option exn) : B :=
    let y := match ex with Some e => fail x e | None => x end in
    match calls with [] => y | _ => warned y end.

  (** The binaries of [indices] are drawn and evolved one after the other, each in the generator
      state left by the previous one; [bs] are the evolved binaries. *)
  Inductive lived : G -> list Z -> list B -> G -> Prop :=
  | lived_none : forall g, lived g [] [] g
  | lived_next : forall g i l g1 x g2 x2 al calls ex bs g3,
      gen g i = (g1, Ok x) -> evo g1 x = (g2, x2, al, calls, ex) -> Forall proper calls ->
      lived g2 l bs g3 -> lived g (i :: l) (outcome x2 calls ex :: bs) g3.

  (** Evolution, failure and marking keep the index of a binary. *)
  Definition keeps_index : Prop :=
    (forall g x g2 x2 al calls ex, evo g x = (g2, x2, al, calls, ex) -> b_index x2 = b_index x)
    /\ (forall x e, b_index (fail x e) = b_index x) /\ (forall x, b_index (warned x) = b_index x).

  (** The tables of a list of binaries. *)
  Inductive tabulated : list B -> list (list hrow) -> list orow -> Prop :=
  | tab_none : tabulated [] [] []
  | tab_next : forall x bs h hs o os, to_df x = Ok h -> to_oneline x = Ok o ->
      tabulated bs hs os -> tabulated (x :: bs) (h :: hs) (o :: os).
End Spec.

(** ** Masses *)
(** The first row of every index in a table. *)
Definition first_of_index (l : list hrow) (r : hrow) : Prop :=
  exists a b, l = (a ++ r :: b)%list /\ ~ In (h_index r) (map h_index a).
Definition mass (m : option Q) : Q := match m with Some q => q | None => 0 end.
(** Initial mass of a system: a single star counts its first mass only. *)
Definition initial_mass (r : hrow) : Q :=
  if string_dec (h_state r) "initially_single_star" then mass (h_m1 r) else (mass (h_m1 r) + mass (h_m2 r))%Q.
Definition total_mass (rows : list hrow) : Q := fold_right (fun r s => initial_mass r + s)%Q 0%Q rows.
(** [t] are the totals of a table whose first rows are [rows]. *)
Definition totals_of (t : totals) (rows : list hrow) (systems : Z) : Prop :=
  (t_mass t == total_mass rows)%Q
  /\ (t_single t == total_mass (filter is_single rows))%Q
  /\ (t_binaries t == total_mass (filter (fun r => negb (is_single r)) rows))%Q
  /\ t_systems t = systems.
(** [rows] are the first rows of all indices of [l], in order. *)
Definition initial_rows (l rows : list hrow) : Prop :=
  NoDup (map h_index rows) /\ (forall r, In r rows <-> first_of_index l r)
  /\ exists keep, length keep = length l
     /\ rows = map snd (filter fst (combine keep l)).

(** The manager holds nothing. *)
Definition empty_mgr : mgr := Mgr [] [] [] [].

(** ** Batches *)
(** Number of binaries in the first, the first two, ... groups. *)
Fixpoint ends {A} (acc : nat) (groups : list (list A)) : list nat :=
  match groups with
  | [] => []
  | g :: gs => (acc + length g)%nat :: ends (acc + length g) gs
  end.
(** A file holding the tables of a group of binaries and their totals. *)
Definition file_of {B} (to_df : B -> result (list hrow)) (to_oneline : B -> result orow)
    (c : fcontent) (group : list B) : Prop :=
  exists hs os t rows, tabulated B to_df to_oneline group hs os
    /\ c = FC (Some (concat hs)) (Some os) (Some t)
    /\ initial_rows (concat hs) rows /\ totals_of t rows (Z.of_nat (length group)).
(** Rows of a list of groups, with the initial rows taken group by group. *)
Definition groups_totals {B} (to_df : B -> result (list hrow)) (to_oneline : B -> result orow)
    (groups : list (list B)) (rows : list hrow) : Prop :=
  exists parts, rows = concat parts
    /\ Forall2 (fun g r => exists hs os, tabulated B to_df to_oneline g hs os /\ initial_rows (concat hs) r)
         groups parts.

(** Warnings and alarm are as before, up to what was printed. *)
Definition undisturbed (before after : pw) : Prop :=
  idle after /\ filters after = filters before /\ reg_at after 0 = reg_at before 0.

(** ** Combining *)
(** The tables can be appended one after the other. *)
Fixpoint all_fit (fits_h : list hrow -> list hrow -> bool) (fits_o : list orow -> list orow -> bool)
    (hist : list hrow) (one : list orow) (tabs : list (list hrow * list orow)) : Prop :=
  match tabs with
  | [] => True
  | (h, o) :: tabs' => fits_h hist h = true /\ fits_o one o = true
                       /\ all_fit fits_h fits_o (hist ++ h) (one ++ o) tabs'
  end.
(** The file [p] holds the two tables. *)
Definition has_tables (fs : list (string * fcontent)) (p : string) (t : list hrow * list orow) : Prop :=
  exists m, dget String.eqb fs p = Some (FC (Some (fst t)) (Some (snd t)) m).
