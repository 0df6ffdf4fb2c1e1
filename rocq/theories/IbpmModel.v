(** Model of the immersed-boundary solvers: applications/ibpm/ibpm.cpp,
    applications/decoupledibpm/decoupledibpm.cpp,
    applications/rigidkinematics/rigidkinematics.cpp and the prescribed motion
    of examples/api_examples/oscillatingcylinder2dRe100_GPU. As in NSModel.v
    the linear solvers and the convection operator are parameters; logging,
    the linear-solver report and memory management are not modelled. *)
From Coq Require Import String.
From Verif Require Import Prelude ZSum RSum TypesModel GridModel IndexModel IndexSpec BoundaryModel OperatorModel OperatorSpec MatModel BnModel
  NSModel NameModel DriverModel BodyModel DeltaModel.
Local Open Scope R_scope.

(** * Nested matrices *)

(** The rows of MatCreateNest with two blocks one above the other (the columns
    of two blocks side by side): rank by rank, the local rows of block 0, then
    those of block 1. Entries: (block, index in the block). [l0 r], [l1 r] are
    the local sizes. MatConvert keeps the order. *)
Definition nest_layout (size : Z) (l0 l1 : Z -> Z) : list (Z * Z) :=
  flat_map (fun r => map (fun k => (0%Z, k)) (zrange (isum l0 0 r) (isum l0 0 r + l0 r))
                     ++ map (fun k => (1%Z, k)) (zrange (isum l1 0 r) (isum l1 0 r + l1 r)))
           (zrange 0 size).
Definition nest_rows (Lay : list (Z * Z)) (A0 A1 : mat) : mat :=
  fun i j => match nthZ Lay i with Some (b, k) => if (b =? 0)%Z then A0 k j else A1 k j | None => 0 end.
Definition nest_cols (Lay : list (Z * Z)) (A0 A1 : mat) : mat :=
  fun i j => match nthZ Lay j with Some (b, k) => if (b =? 0)%Z then A0 i k else A1 i k | None => 0 end.
(** VecGetSubVector with the index set of block b (MatNestGetISs). *)
Definition nest_sub (Lay : list (Z * Z)) (b : Z) (v : vec) : vec :=
  fun k => match findpos pair_eqb (b, k) Lay 0 with Some i => v i | None => 0 end.

(** Local sizes of the pressure (the DMDA of the pressure). *)
Definition pressure_l (D : dec) (r : Z) : Z := (d_m D 3 0 r * d_m D 3 1 r * d_m D 3 2 r)%Z.
(** Number of Lagrangian unknowns. *)
Definition n_forces (m : mesh) (bodies : list (body * list (list R))) : Z := (bp_nPts (map fst bodies) * m_dim m)%Z.

(** * The coupled solver *)

(** The inherited operators (D the divergence with its correction; G, BNG,
    DBNG the combined ones), the combined D, the layout of the couple
    (pressure, forces), its length. *)
Record ibops := mkIB { ib_ns : nsops; ib_D : mat; ib_lay : list (Z * Z); ib_n : Z }.

(** ibpm.cpp:100-203 with setNullSpace 242-283. *)
Definition ib_createOperators (m : mesh) (D : dec) (B : boundary) (P : nspar) (name : string) (bodies : list (body * list (list R))) : res ibops :=
  do d <- createDivergence m D B false;
  do g <- createGradient m D false;
  do l <- createLaplacian m D B;
  let nv := n_velocity m in
  let L := entry (op_log l) in
  let A := mshift (mscale (- (p_dimp P) * p_nu P) L) (1 / p_dt P) in
  do (E, H) <- ib_operators m D B name bodies;
  let Lay := nest_layout (nranks D) (pressure_l D) (bp_nLclAllProcs (m_dim m) (map fst bodies)) in
  let G := nest_cols Lay (entry g) (mscale (-1) H) in
  let Dc := nest_rows Lay (entry (op_log d)) E in
  do BN <- createBnHead nv L (p_dt P) (p_dimp P * p_nu P) (p_bn P);
  let BNG := mmul nv BN G in
  let DBNG := mmul nv Dc BNG in
  Ok (mkIB (mkOps d G l A BNG (if p_refp P then pin DBNG else DBNG)) Dc Lay (n_pressure m + n_forces m bodies)).

(** ibpm.cpp:286-313. *)
Definition ib_assembleRHSPoisson (m : mesh) (D : dec) (P : nspar) (O : ibops) (U : vec) (B : boundary) : res vec :=
  let rhs := mvec (n_velocity m) (ib_D O) U in
  do c <- correction_mult m (nranks D) (o_D (ib_ns O)) B;
  let rhs : vec := fun i => match nthZ (ib_lay O) i with
                            | Some (b, k) => if (b =? 0)%Z then rhs i + c k else rhs i
                            | None => rhs i end in
  Ok (if p_refp P then fun i => if (i =? 0)%Z then 0 else rhs i else rhs).

(** advance is inherited (navierstokes.cpp:240-266). *)
Definition ib_advance (m : mesh) (D : dec) (P : nspar) (O : ibops) (conv : boundary -> vec -> res vec)
    (vsolve psolve : vec -> vec -> vec) (s : nsstate) : res nsstate :=
  advance_with (ib_n O) m D P (ib_ns O) (rhs_velocity (ib_n O) m D P (ib_ns O) conv) (ib_assembleRHSPoisson m D P O) vsolve psolve s.

(** init (ibpm.cpp:55-82, navierstokes.cpp:130-178) with createVectors
    (ibpm.cpp:206-239): the couple (pressure, forces) is a new zero vector; the
    initial pressure [p0] was set in the vector it replaces. *)
Definition ib_init (m : mesh) (D : dec) (P : nspar) (types : Z -> Z -> bctype) (values : Z -> Z -> R)
    (name : string) (bodies : list (body * list (list R))) (t0 : R) (n0 : Z) (U0 p0 : vec) : res (ibops * nsstate) :=
  do bl <- mapM (fun r => createBoundary m D r types values) (zrange 0 (nranks D));
  do B <- bc_call m D (OpICs U0) (fun r => match nthZ bl r with Some b => b | None => [] end);
  do ops <- ib_createOperators m D B P name bodies;
  Ok (ops, mkNS t0 n0 U0 (fun _ => 0) (fun _ => 0) (map (fun _ => (fun _ => 0) : vec) (p_cexp P)) (map (fun _ => (fun _ => 0) : vec) (p_dexp P)) B).

(** * The decoupled solver *)

Record dops := mkDO { di_E : mat; di_H : mat; di_BNH : mat; di_EBNH : mat }.

(** decoupledibpm.cpp:149-216. *)
Definition createExtraOperators (m : mesh) (D : dec) (B : boundary) (P : nspar) (O : nsops) (name : string)
    (bodies : list (body * list (list R))) : res dops :=
  do (E, H) <- ib_operators m D B name bodies;
  let nv := n_velocity m in
  do BN <- createBnHead nv (entry (op_log (o_L O))) (p_dt P) (p_dimp P * p_nu P) (p_bn P);
  let BNH := mmul nv BN H in
  Ok (mkDO E H BNH (mmul nv E BNH)).

(** The state: that of the Navier-Stokes solver, the forces and their
    increment. *)
Record dstate := mkDS { x_ns : nsstate; x_f : vec; x_df : vec }.

(** decoupledibpm.cpp:233-250. *)
Definition d_assembleRHSVelocity (m : mesh) (D : dec) (P : nspar) (O : nsops) (X : dops) (nf : Z) (conv : boundary -> vec -> res vec)
    (f : vec) (s : nsstate) : res (vec * nsstate) :=
  do (rhs1, s1) <- assembleRHSVelocity m D P O conv s;
  Ok (vaxpy rhs1 1 (mvec nf (di_H X) f), s1).

(** decoupledibpm.cpp:253-269. *)
Definition d_assembleRHSForces (m : mesh) (X : dops) (U : vec) : vec := vscale (-1) (mvec (n_velocity m) (di_E X) U).

(** decoupledibpm.cpp:105-131 with 272-319. [rhs_f] is the virtual
    assembleRHSForces, [fsolve] the solver of the forces. *)
Definition d_advance (m : mesh) (D : dec) (P : nspar) (O : nsops) (X : dops) (nf : Z) (conv : boundary -> vec -> res vec)
    (rhs_f : vec -> vec) (vsolve psolve fsolve : vec -> vec -> vec) (x : dstate) : res dstate :=
  let s := x_ns x in
  let s := mkNS (s_t s + p_dt P) (s_ite s + 1) (s_U s) (s_p s) (s_dP s) (s_conv s) (s_diff s) (s_bc s) in
  do (rhs1, s) <- d_assembleRHSVelocity m D P O X nf conv (x_f x) s;
  let U1 := vsolve (s_U s) rhs1 in
  let rhsf := rhs_f U1 in
  let df := fsolve (x_df x) rhsf in
  let U2 := vaxpy U1 1 (mvec nf (di_BNH X) df) in
  do rhs2 <- assembleRHSPoisson m D P O U2 (s_bc s);
  let dP := psolve (s_dP s) rhs2 in
  let U3 := vaxpy U2 (-1) (mvec (n_pressure m) (o_BNG O) dP) in
  let p2 := vaxpy (s_p s) 1 dP in
  let f2 := vaxpy (x_f x) 1 df in
  do B2 <- bc_call m D (OpVals U3) (s_bc s);
  Ok (mkDS (mkNS (s_t s) (s_ite s) U3 p2 dP (s_conv s) (s_diff s) B2) f2 df).

(** decoupledibpm.cpp:58-102 with 219-230: forces start at zero. *)
Definition d_init (m : mesh) (D : dec) (P : nspar) (types : Z -> Z -> bctype) (values : Z -> Z -> R)
    (name : string) (bodies : list (body * list (list R))) (t0 : R) (n0 : Z) (U0 p0 : vec) : res (nsops * dops * dstate) :=
  do (ops, s0) <- ns_init m D P types values t0 n0 U0 p0;
  do X <- createExtraOperators m D (s_bc s0) P ops name bodies;
  Ok (ops, X, mkDS s0 (fun _ => 0) (fun _ => 0)).

(** * Moving bodies *)

(** The state: that of the decoupled solver, the points of the bodies, the
    prescribed velocity, the operators of the bodies, the matrix given to the
    solver of the forces. *)
Record rstate := mkRS { r_x : dstate; r_bodies : list (body * list (list R)); r_UB : vec; r_ops : dops; r_solver : mat }.

(** What the user supplies: setCoordinatesBodies and setVelocityBodies
    (rigidkinematics.h:75-93). [move t l]: the coordinates of all bodies at
    time t, [l] the ones before the call. *)
Record motion := mkMotion { mo_move : R -> list (list (list R)) -> res (list (list (list R))); mo_vel : R -> vec -> res vec }.

Definition set_coords (bodies : list (body * list (list R))) (cs : list (list (list R))) : list (body * list (list R)) :=
  map (fun bc => (fst (fst bc), snd bc)) (combine bodies cs).

(** rigidkinematics.cpp:119-140. bodies->updateMeshIdx is part of
    [createDelta]. *)
Definition moveBodies (m : mesh) (D : dec) (P : nspar) (O : nsops) (name : string) (mo : motion) (ti : R) (s : rstate) : res rstate :=
  do cs <- mo_move mo ti (map snd (r_bodies s));
  do ub <- mo_vel mo ti (r_UB s);
  let bodies := set_coords (r_bodies s) cs in
  do X <- createExtraOperators m D (s_bc (x_ns (r_x s))) P O name bodies;
  Ok (mkRS (r_x s) bodies ub X (di_EBNH X)).

(** rigidkinematics.cpp:143-159. *)
Definition r_assembleRHSForces (m : mesh) (X : dops) (ub U : vec) : vec :=
  let r := vscale (-1) (mvec (n_velocity m) (di_E X) U) in fun i => ub i + 1 * r i.

(** rigidkinematics.cpp:69-81. [fsolve A] solves with the matrix A. *)
Definition r_advance (m : mesh) (D : dec) (P : nspar) (O : nsops) (name : string) (mo : motion) (conv : boundary -> vec -> res vec)
    (vsolve psolve : vec -> vec -> vec) (fsolve : mat -> vec -> vec -> vec) (s : rstate) : res rstate :=
  do s1 <- moveBodies m D P O name mo (s_t (x_ns (r_x s)) + p_dt P) s;
  do x <- d_advance m D P O (r_ops s1) (n_forces m (r_bodies s1)) conv (r_assembleRHSForces m (r_ops s1) (r_UB s1))
            vsolve psolve (fsolve (r_solver s1)) (r_x s1);
  Ok (mkRS x (r_bodies s1) (r_UB s1) (r_ops s1) (r_solver s1)).

(** rigidkinematics.cpp:47-66. *)
Definition r_init (m : mesh) (D : dec) (P : nspar) (types : Z -> Z -> bctype) (values : Z -> Z -> R)
    (name : string) (bodies : list (body * list (list R))) (t0 : R) (n0 : Z) (U0 p0 : vec) : res (nsops * rstate) :=
  do (OX, x) <- d_init m D P types values name bodies t0 n0 U0 p0;
  Ok (fst OX, mkRS x bodies (fun _ => 0) (snd OX) (di_EBNH (snd OX))).

(** * Files of the bodies *)

(** rigidkinematics.cpp:162-183: the path of the file of a body; [writeBodies]
    gives the files written, in order. *)
Definition body_path (out name : string) (ite dim : Z) : string :=
  (out ++ "/" ++ name ++ "_" ++ step_name ite ++ "." ++ to_string dim ++ "D")%string.
Definition writeBodies (pr : R -> string) (out : string) (m : mesh) (names : list string) (bodies : list (body * list (list R))) (ite : Z)
    : res (list (string * text)) :=
  mapM (fun nb => do t <- writeBody pr (m_dim m) (b_nPts (fst (snd nb))) (snd (snd nb));
                  Ok (body_path out (fst nb) ite (m_dim m), t)) (combine names bodies).
(** rigidkinematics.cpp:84-102 (the part that is not inherited). *)
Definition r_write (pr : R -> string) (out : string) (m : mesh) (names : list string) (nsave : Z) (s : rstate) : res (list (string * text)) :=
  let ite := s_ite (x_ns (r_x s)) in
  if (nsave =? 0)%Z then UB
  else if (Z.rem ite nsave =? 0)%Z then writeBodies pr out m names (r_bodies s) ite else Ok [].
(** rigidkinematics.cpp:105-116, without restart data. *)
Definition r_ioInitial (pr : R -> string) (out : string) (m : mesh) (names : list string) (s : rstate) : res (list (string * text)) :=
  writeBodies pr out m names (r_bodies s) (s_ite (x_ns (r_x s))).
(** The loop of main: advance, write. The body files written by every call of
    write. *)
Fixpoint r_drive (k : nat) (pr : R -> string) (out : string) (m : mesh) (names : list string) (nsave : Z)
    (step : rstate -> res rstate) (s : rstate) : res (rstate * list (string * text)) :=
  match k with
  | O => Ok (s, [])
  | S k' => do (s1, w1) <- r_drive k' pr out m names nsave step s;
            do s2 <- step s1;
            do w2 <- r_write pr out m names nsave s2;
            Ok (s2, w1 ++ w2)
  end.
(** What a reader finds at a path: the last file written there. *)
Definition on_disk (w : list (string * text)) (p : string) : option text :=
  fold_left (fun acc pt => if String.eqb (fst pt) p then Some (snd pt) else acc) w None.

(** * The oscillating cylinder *)

(** oscillatingcylinder.cpp:42-52: amplitude and maximum velocity. PETSC_PI and
    the trigonometric functions are taken as exact. *)
Definition osc_Am (Dc KC : R) : R := Dc * KC / (2 * PI).
Definition osc_Um (f Am : R) : R := 2 * PI * f * Am.

(** oscillatingcylinder.cpp:59-84: the first body moves; [coords0] are the
    coordinates read from its file. Writing coords[k][1] needs two components. *)
Definition osc_move (f Am : R) (coords0 : list (list R)) (ti : R) (cs : list (list (list R))) : res (list (list (list R))) :=
  let Xd := - Am * sin (2 * PI * f * ti) in
  let Yd := 0 in
  do c <- rd cs 0;
  do c' <- foldM (fun c k => do row0 <- rd coords0 k; do x0 <- rd row0 0; do y0 <- rd row0 1;
                             do row <- rd c k; do row1 <- wr row 0 (x0 + Xd); do row2 <- wr row1 1 (y0 + Yd);
                             wr c k row2) (zrange 0 (lenZ coords0)) c;
  wr cs 0 c'.

(** oscillatingcylinder.cpp:86-111 for a pack of a single body: DMDAVecGetArrayDOF
    refuses a vector whose local size is not that of the body
    (PETSC_ERR_ARG_INCOMP); entry [k][c] is component c of point k, whose
    position in the vector is that of the packed ordering. *)
Definition osc_vel (size : Z) (f Um : R) (bodies : list body) (ti : R) (ub : vec) : res vec :=
  let Ux := - Um * cos (2 * PI * f * ti) in
  do b <- rd bodies 0;
  if forallb (fun r => (bp_nLclAllProcs 2 bodies r =? sb_nLclAllProcs 2 b r)%Z) (zrange 0 size) then
    foldM (fun ub r => foldM (fun ub k =>
        do i0 <- bp_getPackedGlobalIndex size 2 bodies 0 k 0; do i1 <- bp_getPackedGlobalIndex size 2 bodies 0 k 1;
        Ok (fun i => if (i =? i1)%Z then 0 else if (i =? i0)%Z then Ux else ub i)) (zrange (b_bg b r) (b_ed b r)) ub)
      (zrange 0 size) ub
  else Err PETSC_ERR_ARG_INCOMP.
(** The two functions as the class of the example supplies them. *)
Definition osc_motion (size : Z) (f Am Um : R) (b : body) (coords0 : list (list R)) : motion :=
  mkMotion (osc_move f Am coords0) (osc_vel size f Um [b]).
(** The functions of the base class, which do nothing
    (rigidkinematics.h:75-93). *)
Definition still : motion := mkMotion (fun _ l => Ok l) (fun _ v => Ok v).
