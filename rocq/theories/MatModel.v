(** Square and rectangular matrices as PETSc sees them once assembled: a
    function of the row and column index. The PETSc kernels used by the code
    (MatMatMult, MatMult, MatAXPY, MatScale, MatShift, MatDiagonalScale,
    MatGetDiagonal, VecReciprocal) are given by their mathematical definition. *)
From Verif Require Import Prelude ZSum RSum.
Local Open Scope R_scope.

Definition mat : Type := Z -> Z -> R.
Definition vec : Type := Z -> R.
Definition mzero : mat := fun _ _ => 0.
Definition mident : mat := fun i j => if (i =? j)%Z then 1 else 0.
(** MatMatMult(A, B): [k] is the common dimension. *)
Definition mmul (k : Z) (A B : mat) : mat := fun i j => zsum (fun l => A i l * B l j) 0 k.
(** MatMult(A, x): [k] columns. *)
Definition mvec (k : Z) (A : mat) (x : vec) : vec := fun i => zsum (fun l => A i l * x l) 0 k.
(** MatAXPY(Y, a, X): Y + a X. *)
Definition maxpy (Y : mat) (a : R) (X : mat) : mat := fun i j => Y i j + a * X i j.
(** MatScale *)
Definition mscale (a : R) (A : mat) : mat := fun i j => a * A i j.
(** MatShift(A, a): A + a I. *)
Definition mshift (A : mat) (a : R) : mat := fun i j => A i j + (if (i =? j)%Z then a else 0).
(** MatDiagonalScale(A, l, r): diag(l) A diag(r). *)
Definition mdscale (l r : vec) (A : mat) : mat := fun i j => l i * A i j * r j.
(** MatDiagonalSet(A, v, INSERT_VALUES) *)
Definition mdset (A : mat) (v : vec) : mat := fun i j => if (i =? j)%Z then v i else A i j.
(** MatGetDiagonal *)
Definition mdiag (A : mat) : vec := fun i => A i i.
(** VecReciprocal: zero entries stay zero. *)
Definition vrecip (v : vec) : vec := fun i => if Req_EM_T (v i) 0 then 0 else 1 / v i.
Definition vones : vec := fun _ => 1.
