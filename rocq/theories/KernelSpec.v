(** What C93 says: for which numbers, and the volume of a cell. *)
From Coq Require Import ZArith Reals List.
From Flocq Require Import Core BinarySingleNaN Binary Bits.
From Verif Require Import FloatModel FloatSpec.
Local Open Scope R_scope.

(** A distance of at most 2^500 and a cell width between 2^-500 and 2^500. *)
Definition usual (r dr : dbl) : Prop :=
  finite r /\ finite dr /\ / 2 ^ 500 <= val dr <= 2 ^ 500 /\ Rabs (val r) <= 2 ^ 500.

(** A coordinate of at most 2^400, a width between 2^-100 and 2^100. *)
Definition near_origin (s : dbl) : Prop := finite s /\ Rabs (val s) <= 2 ^ 400.
Definition plain_width (h : dbl) : Prop := finite h /\ / 2 ^ 100 <= val h <= 2 ^ 100.

(** The volume of a cell. *)
Definition volume (widths : list dbl) : R := fold_right (fun h v => val h * v) 1 widths.
