(** Specification vocabulary for matrices. *)
From Verif Require Import Prelude ZSum RSum MatModel.
Local Open Scope R_scope.

(** Equal N x N matrices. *)
Definition meq (N : Z) (A B : mat) : Prop := forall i j, (0 <= i < N)%Z -> (0 <= j < N)%Z -> A i j = B i j.
Fixpoint mpow (N : Z) (A : mat) (k : nat) : mat :=
  match k with O => mident | S k' => mmul N A (mpow N A k') end.
Definition msub (A B : mat) : mat := fun i j => A i j - B i j.
(** diag(v) *)
Definition mdiagonal (v : vec) : mat := fun i j => if (i =? j)%Z then v i else 0.
(** M/dt - c Op *)
Definition implicit_matrix (M : mat) (dt c : R) (Op : mat) : mat := fun i j => M i j / dt - c * Op i j.
(** v has no zero entry among the first N. *)
Definition nonzero (N : Z) (v : vec) : Prop := forall i, (0 <= i < N)%Z -> v i <> 0.
