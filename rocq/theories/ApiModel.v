(** Model of the program of examples/api_examples/liddrivencavity2d: a flow
    solver that a user writes with the functions of the library. *)
From Coq Require Import Ascii String.
From Verif Require Import Prelude ZSum RSum TypesModel GridModel IndexModel BoundaryModel OperatorModel OperatorSpec MatModel BnModel
  SolutionModel ConvModel NSModel NameModel DriverModel ConfigModel ProgModel.
Local Open Scope R_scope.

(** main.cpp:81-87: the parameters in the source of the program. *)
Definition api_start : Z := 0.
Definition api_end : Z := 2000.
Definition api_dt : R := 1 / 100.
Definition api_nu : R := 1 / 100.

(** main.cpp:155-205, in the order of the source. The null space that is
    attached to DBNG does not change its entries. *)
Definition api_operators (m : mesh) (D : dec) (B : boundary) : res nsops :=
  do d <- createDivergence m D B false;
  do g <- createGradient m D false;
  do l <- createLaplacian m D B;
  let nv := n_velocity m in
  let L := entry (op_log l) in
  let A := mshift (mscale (- api_nu) L) (1 / api_dt) in
  do BN <- createBnHead nv L api_dt api_nu 1;
  let BNG := mmul nv BN (entry g) in
  let DBNG := mmul nv (entry (op_log d)) BNG in
  Ok (mkOps d (entry g) l A BNG DBNG).

(** The objects that change in the loop. *)
Record apistate := mkApi { a_U : vec; a_p : vec; a_dP : vec; a_bc : boundary }.

(** main.cpp:272-350, one pass of the loop. VecAXPBY(y, a, b, x) is
    y = a x + b y. The error codes of createConvection and of the MatMultAdd
    with the convection operator are not checked in the source; here such an
    error stops the program (there is none, by [convection] of C25). *)
Definition api_step (m : mesh) (D : dec) (ops : nsops) (vsolve psolve : vec -> vec -> vec) (s : apistate) : res apistate :=
  let rhs1 := mvec (n_pressure m) (o_G ops) (a_p s) in
  do c <- convection m D (a_bc s) (a_U s);
  let rhs1 := fun i => rhs1 i + c i in
  let rhs1 := fun i => 1 / api_dt * a_U s i + -1 * rhs1 i in
  do B1 <- bc_call m D (OpEqs (a_U s) api_dt) (a_bc s);
  do bc1 <- correction_mult m (nranks D) (o_L ops) B1;
  let rhs1 := vaxpy rhs1 (1 * api_nu) bc1 in
  let U1 := vsolve (a_U s) rhs1 in
  let rhs2 := mvec (n_velocity m) (entry (op_log (o_D ops))) U1 in
  do dbc <- correction_mult m (nranks D) (o_D ops) B1;
  let rhs2 := fun i => rhs2 i + dbc i in
  let dP := psolve (a_dP s) rhs2 in
  let U2 := vaxpy U1 (-1) (mvec (n_pressure m) (o_BNG ops) dP) in
  let p2 := vaxpy (a_p s) 1 dP in
  do B2 <- bc_call m D (OpVals U2) B1;
  Ok (mkApi U2 p2 dP B2).

(** main.cpp:264-351: for (iter = start; iter <= end; iter++). *)
Definition api_loop (m : mesh) (D : dec) (ops : nsops) (vsolve psolve : vec -> vec -> vec) (s : apistate) : res apistate :=
  foldM (fun s _ => api_step m D ops vsolve psolve s) (zrange api_start (api_end + 1)) s.

Section Program.
Variable rd : reader.
Variable lambdify : string -> option (R -> R -> R -> R -> R -> R).
Variable have_amgx : bool.
Variable load_options : string -> bool.
Variable np : Z -> Z.
Variable solver_result : linsolver -> vec -> vec -> vec.
Local Open Scope string_scope.

(** main.cpp:106-356 after the settings have been read: returns the last state
    and the disk. Not modelled: the files left behind by a run that fails; the
    destruction of the objects (main.cpp:358-381). *)
Definition api_program (y : node) (d : disk) : res (mesh * dec * apistate * disk) :=
  do MD <- used (createMesh rd np y); let '(m, D) := MD in
  do on <- yget_mut y "output"; do out <- as_string on;
  do w <- mesh_write m (grid_path out);
  do s <- setInitialConditions rd lambdify y m D;
  do bl <- mapM (fun r => used (createBoundary_factory rd m D r y)) (zrange 0 (nranks D));
  do B <- bc_call m D (OpICs (UGlobal s)) (fun r => match nthZ bl r with Some b => b | None => [] end);
  do ops <- api_operators m D B;
  do v <- used (createLinSolver have_amgx load_options "velocity" y);
  do p <- used (createLinSolver have_amgx load_options "poisson" y);
  do a <- api_loop m D ops (solver_result v) (solver_result p) (mkApi (UGlobal s) (pGlobal s) (fun _ => 0) B);
  Ok (m, D, a, run_ops (w ++ solution_write m D (out ++ "/0002000.h5") (a_U a) (a_p a)) d).

(** main.cpp:60-381 *)
Definition api_app (cli : string -> option string) (fs : string -> loaded) (mkdir : string -> bool) (d : disk)
  : res (mesh * dec * apistate * disk) :=
  do st <- snd (getSettings cli fs mkdir); api_program (Some (YMap st)) d.
End Program.
