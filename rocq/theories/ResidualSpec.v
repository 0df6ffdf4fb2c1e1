(** What an approximate solution leaves of a linear system. *)
From Verif Require Import Prelude ZSum RSum OperatorModel MatModel.
Local Open Scope R_scope.

(** The residual b - A x of the n x n system A x = b at x. *)
Definition residual (n : Z) (A : mat) (x b : vec) : vec := fun i => b i - mvec n A x i.
(** Its squared Euclidean norm. *)
Definition norm2 (n : Z) (r : vec) : R := zsum (fun i => r i * r i) 0 n.
