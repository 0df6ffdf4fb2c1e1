(** What C94 says: the exact average of some values. *)
From Coq Require Import ZArith Reals List.
From Verif Require Import FloatModel FloatSpec.
Import ListNotations.
Local Open Scope R_scope.
Definition total_of (l : list dbl) : R := fold_right (fun v s => val v + s) 0 l.
Definition mean (l : list dbl) : R := total_of l / INR (length l).
(** The values recorded in cycle number [k] of [n] values. *)
Definition cycle (n k : nat) (vs : list dbl) : list dbl := firstn n (skipn (k * n) vs).
