(** What C85 and C86 say: how far a sum of doubles may be from the exact sum. *)
From Coq Require Import ZArith Reals List.
From Flocq Require Import Core BinarySingleNaN Binary Bits.
From Verif Require Import FloatModel.
Import ListNotations.
Local Open Scope R_scope.

(** The real number a double stands for, and the doubles that stand for one. *)
Definition val (x : dbl) : R := B2R 53 1024 x.
Definition finite (x : dbl) : Prop := is_finite 53 1024 x = true.

(** The spacing of the doubles between 1 and 2. *)
Definition eps : R := / 2 ^ 52.

(** The time after [n] steps, had it been computed exactly. *)
Definition exact_time (n : nat) (t0 dt : dbl) : R := val t0 + INR n * val dt.

(** The largest distance from it that rounding can cause. *)
Definition drift (n : nat) (t0 dt : dbl) : R := INR n * eps * (Rabs (val t0) + INR n * Rabs (val dt)).

(** Runs of fewer than 2^51 steps whose times are far from the largest double. *)
Definition ordinary_run (n : nat) (t0 dt : dbl) : Prop :=
  finite t0 /\ finite dt /\ INR n <= 2 ^ 51 /\ Rabs (val t0) + INR n * Rabs (val dt) <= 2 ^ 1000.

(** The exact length of the first [k] cells. *)
Fixpoint length_of (k : nat) (widths : list dbl) : R :=
  match k, widths with
  | S k', d :: l => val d + length_of k' l
  | _, _ => 0
  end.

(** Meshes of fewer than 2^51 cells of positive width, far from the largest double. *)
Definition ordinary_mesh (min : dbl) (widths : list dbl) : Prop :=
  finite min /\ (forall d, In d widths -> finite d /\ 0 < val d) /\ INR (length widths) <= 2 ^ 51 /\
  Rabs (val min) + length_of (length widths) widths <= 2 ^ 1000.
