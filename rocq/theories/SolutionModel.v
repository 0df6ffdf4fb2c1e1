(** Model of the solution object's flux/velocity conversions
    (src/solution/solutionsimple.cpp). A PETSc vector is a function of the
    packed global index. *)
From Verif Require Import Prelude ZSum RSum TypesModel GridModel IndexModel BoundaryModel OperatorModel.
Local Open Scope R_scope.

(** include/petibm/solution.h: the two vectors of a solution. *)
Record solution := mkSol { UGlobal : Z -> R; pGlobal : Z -> R }.

(** solutionsimple.cpp:90-103 MatMult(RInv, UGlobal, U); VecSwap. [nv] is the
    length of the velocity vector. *)
Definition convert2Velocity (nv : Z) (RInv : list mev) (s : solution) : solution :=
  mkSol (mat_mult RInv nv (UGlobal s)) (pGlobal s).
(** solutionsimple.cpp:106-119 *)
Definition convert2Flux (nv : Z) (Rm : list mev) (s : solution) : solution :=
  mkSol (mat_mult Rm nv (UGlobal s)) (pGlobal s).
