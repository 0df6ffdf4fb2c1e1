(** Model of the Navier-Stokes solver
    (applications/navierstokes/navierstokes.cpp): operators, right-hand sides,
    time step. The linear solvers are parameters (initial guess, right-hand side
    -> solution); the convection operator is a parameter (boundary object,
    velocity -> term), modelled in ConvModel.v. Logging is not modelled. *)
From Verif Require Import Prelude ZSum RSum TypesModel GridModel IndexModel BoundaryModel OperatorModel OperatorSpec MatModel BnModel.
Local Open Scope R_scope.

(** Parameters read in init (navierstokes.cpp:110-124) and the coefficients of
    the two time schemes. *)
Record nspar := mkPar { p_dt : R; p_nu : R; p_bn : Z; p_cexp : list R; p_dimp : R; p_dexp : list R; p_refp : bool }.

(** The operators kept by the solver (navierstokes.h). *)
Record nsops := mkOps { o_D : oper; o_G : mat; o_L : oper; o_A : mat; o_BNG : mat; o_DBNG : mat }.

(** MatZeroRowsColumns(A, 1, {0}, 1.0): row and column 0 become those of the
    identity (navierstokes.cpp:414-418). *)
Definition pin (A : mat) : mat := fun i j => if ((i =? 0) || (j =? 0))%Z then (if (i =? j)%Z then 1 else 0) else A i j.

(** navierstokes.cpp:317-365 with setNullSpace 395-429. *)
Definition createOperators (m : mesh) (D : dec) (B : boundary) (P : nspar) : res nsops :=
  do d <- createDivergence m D B false;
  do g <- createGradient m D false;
  do l <- createLaplacian m D B;
  let nv := n_velocity m in
  let L := entry (op_log l) in
  let A := mshift (mscale (- (p_dimp P) * p_nu P) L) (1 / p_dt P) in
  do BN <- createBnHead nv L (p_dt P) (p_dimp P * p_nu P) (p_bn P);
  let BNG := mmul nv BN (entry g) in
  let DBNG := mmul nv (entry (op_log d)) BNG in
  Ok (mkOps d (entry g) l A BNG (if p_refp P then pin DBNG else DBNG)).

(** State of the solver between calls. *)
Record nsstate := mkNS {
  s_t : R; s_ite : Z; s_U : vec; s_p : vec; s_dP : vec; s_conv : list vec; s_diff : list vec; s_bc : boundary }.

(** VecAXPY(y, a, x), VecScale, on the whole index range. *)
Definition vaxpy (y : vec) (a : R) (x : vec) : vec := fun i => y i + a * x i.
Definition vscale (a : R) (x : vec) : vec := fun i => a * x i.

(** One boundary call on every rank (boundarysimple.cpp:67-125). *)
Definition bc_call (m : mesh) (D : dec) (o : bop) (B : boundary) : res boundary :=
  do l <- mapM (fun r => run_boundary_op m D r (B r) o) (zrange 0 (nranks D));
  Ok (fun r => match nthZ l r with Some b => b | None => [] end).

(** The loop of VecSwap (navierstokes.cpp:452-455 and 481-484): for i from
    size - 1 down to 1, swap entries i and i - 1. *)
Definition swap_prev (l : list vec) (i : Z) : res (list vec) :=
  do a <- rd l i; do b <- rd l (i - 1); do l1 <- wr l i b; wr l1 (i - 1) a.
Definition rotate (l : list vec) : res (list vec) := foldM swap_prev (rev (zrange 1 (lenZ l))) l.

(** navierstokes.cpp:470-474 and 497-502: y += c_i * h_i for every slot; the
    coefficient vector is read at the same index. *)
Definition add_terms (coeffs : list R) (h : list vec) (y : vec) : res vec :=
  foldM (fun y i => do c <- rd coeffs i; do v <- rd h i; Ok (vaxpy y c v)) (zrange 0 (lenZ h)) y.

(** navierstokes.cpp:432-521: returns the right-hand side and the state with
    the new histories and boundary equations. [n] is the number of columns of
    G: the pressure points here, the pressure points and the body forces in the
    coupled immersed-boundary solver, which inherits the function. *)
Definition rhs_velocity (n : Z) (m : mesh) (D : dec) (P : nspar) (O : nsops) (conv : boundary -> vec -> res vec)
    (s : nsstate) : res (vec * nsstate) :=
  let nv := n_velocity m in
  let rhs := vscale (-1) (mvec n (o_G O) (s_p s)) in
  let rhs := vaxpy rhs (1 / p_dt P) (s_U s) in
  do cs <- rotate (s_conv s);
  do cs <- (if (0 <? lenZ cs)%Z then do c <- conv (s_bc s) (s_U s); wr cs 0 (vscale (-1) c) else Ok cs);
  do rhs <- add_terms (p_cexp P) cs rhs;
  do ds <- rotate (s_diff s);
  do ds <- (if (0 <? lenZ ds)%Z
            then do c <- correction_mult m (nranks D) (o_L O) (s_bc s);
                 wr ds 0 (vscale (p_nu P) (vaxpy c 1 (mvec nv (entry (op_log (o_L O))) (s_U s))))
            else Ok ds);
  do rhs <- add_terms (p_dexp P) ds rhs;
  do B1 <- bc_call m D (OpEqs (s_U s) (p_dt P)) (s_bc s);
  do c <- correction_mult m (nranks D) (o_L O) B1;
  Ok (vaxpy rhs (p_dimp P) (vscale (p_nu P) c),
      mkNS (s_t s) (s_ite s) (s_U s) (s_p s) (s_dP s) cs ds B1).

Definition assembleRHSVelocity (m : mesh) (D : dec) (P : nspar) (O : nsops) (conv : boundary -> vec -> res vec)
    (s : nsstate) : res (vec * nsstate) := rhs_velocity (n_pressure m) m D P O conv s.

(** navierstokes.cpp:540-563 *)
Definition assembleRHSPoisson (m : mesh) (D : dec) (P : nspar) (O : nsops) (U : vec) (B : boundary) : res vec :=
  do c <- correction_mult m (nranks D) (o_D O) B;
  let rhs := vaxpy c 1 (mvec (n_velocity m) (entry (op_log (o_D O))) U) in
  Ok (if p_refp P then fun i => if (i =? 0)%Z then 0 else rhs i else rhs).

(** navierstokes.cpp:240-266 with 524-537 and 566-636. The two assembly
    functions are virtual; [n] is the number of columns of BNG. *)
Definition advance_with (n : Z) (m : mesh) (D : dec) (P : nspar) (O : nsops)
    (rhs_v : nsstate -> res (vec * nsstate)) (rhs_p : vec -> boundary -> res vec)
    (vsolve psolve : vec -> vec -> vec) (s : nsstate) : res nsstate :=
  let s := mkNS (s_t s + p_dt P) (s_ite s + 1) (s_U s) (s_p s) (s_dP s) (s_conv s) (s_diff s) (s_bc s) in
  do (rhs1, s) <- rhs_v s;
  let U1 := vsolve (s_U s) rhs1 in
  do rhs2 <- rhs_p U1 (s_bc s);
  let dP := psolve (s_dP s) rhs2 in
  let U2 := vaxpy U1 (-1) (mvec n (o_BNG O) dP) in
  let p2 := vaxpy (s_p s) 1 dP in
  do B2 <- bc_call m D (OpVals U2) (s_bc s);
  Ok (mkNS (s_t s) (s_ite s) U2 p2 dP (s_conv s) (s_diff s) B2).
Definition advance (m : mesh) (D : dec) (P : nspar) (O : nsops) (conv : boundary -> vec -> res vec)
    (vsolve psolve : vec -> vec -> vec) (s : nsstate) : res nsstate :=
  advance_with (n_pressure m) m D P O (assembleRHSVelocity m D P O conv) (assembleRHSPoisson m D P O) vsolve psolve s.

(** The part of init that sets up the fields (navierstokes.cpp:130-178):
    initial vectors, ghost initialisation, operators, zeroed work vectors
    (VecDuplicate gives zero entries). *)
Definition ns_init (m : mesh) (D : dec) (P : nspar) (types : Z -> Z -> bctype) (values : Z -> Z -> R)
    (t0 : R) (n0 : Z) (U0 p0 : vec) : res (nsops * nsstate) :=
  do bl <- mapM (fun r => createBoundary m D r types values) (zrange 0 (nranks D));
  do B <- bc_call m D (OpICs U0) (fun r => match nthZ bl r with Some b => b | None => [] end);
  do ops <- createOperators m D B P;
  Ok (ops, mkNS t0 n0 U0 p0 (fun _ => 0) (map (fun _ => (fun _ => 0) : vec) (p_cexp P)) (map (fun _ => (fun _ => 0) : vec) (p_dexp P)) B).
