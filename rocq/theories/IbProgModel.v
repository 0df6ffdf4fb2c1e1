(** Model of the immersed-boundary programs from their settings to their end:
    IBPMSolver::init (applications/ibpm/ibpm.cpp:53-82),
    DecoupledIBPMSolver::init (applications/decoupledibpm/decoupledibpm.cpp:58-102),
    RigidKinematicsSolver::init (applications/rigidkinematics/rigidkinematics.cpp:47-66)
    with the oscillating cylinder (examples/api_examples/
    oscillatingcylinder2dRe100_GPU/oscillatingcylinder.cpp:30-58), and their
    main functions, reading the YAML node. *)
From Coq Require Import Ascii String.
From Verif Require Import Prelude ZSum RSum TypesModel GridModel IndexModel BoundaryModel OperatorModel OperatorSpec MatModel BnModel
  SolutionModel ConvModel BodyModel DeltaModel ProbeModel NSModel NameModel DriverModel IbpmModel IbOutModel ConfigModel ProgModel.
Local Open Scope R_scope.

Section Program.
Variable rd : reader.
Variable lx : lexer.
Variable lambdify : string -> option (R -> R -> R -> R -> R -> R).
Variable have_amgx : bool.
Variable load_options : string -> bool.
Variable np : Z -> Z.
(** The text files on disk: the bodies. *)
Variable files : string -> option text.
Local Open Scope string_scope.

(** Number of processes. *)
Definition np_size : Z := (np 0 * np 1 * np 2)%Z.

(** singlebodypoints.cpp:27-59: the points of the file, distributed by PETSc. *)
Definition open_points (dim : Z) (path : string) : res (body * list (list R)) :=
  do (n, coords) <- sb_init lx dim (files path); Ok (default_body np_size n, coords).

(** bodypack.cpp:326-334; the pack is used by the lines that follow, also when
    its constructor stopped half-way. *)
Definition the_bodies (dim : Z) (y : node) : res (list (string * (body * list (list R)))) :=
  used (createBodyPack (body * list (list R)) open_points to_string dim y).

(** The dimension IBPMSolver passes (ibpm.cpp:60): node["mesh"].size(); size()
    of a missing node throws. *)
Definition mesh_size (y : node) : res Z :=
  do mn <- yget y "mesh"; match mn with Some n => Ok (ysize n) | None => Err EXC end.

(** ibpm.cpp:143-144, decoupledibpm.cpp:172-173. *)
Definition delta_word (y : node) : res string :=
  do ps <- yget_mut y "parameters"; do d <- yget ps "delta"; Ok (as_string_or d "ROMA_ET_AL_1999").

(** What the linear solvers return, and the files the probes write in a step. *)
Variable solver_result : linsolver -> vec -> vec -> vec.
Variable probe_ops : list pdesc -> nsstate -> list fsop.

(** ibpm.cpp:53-82 and applications/ibpm/main.cpp:41-73. *)
Definition ib_program (fuel : nat) (y : node) (d : disk) : res (option (nsstate * disk * list (list R))) :=
  do dim <- mesh_size y;
  do bs <- the_bodies dim y;
  do b <- ns_setup rd lambdify have_amgx load_options np y;
  do name <- delta_word y;
  ib_main fuel (nb_conf b) (nb_mesh b) (nb_dec b) (nb_par b) (nb_types b) (nb_values b) name (map snd bs) (nb_t b) (nb_U b) (nb_p b)
    (probe_ops (nb_probes b)) (convection (nb_mesh b) (nb_dec b)) (solver_result (nb_vsolver b)) (solver_result (nb_psolver b)) d.

(** What DecoupledIBPMSolver::init builds beyond the Navier-Stokes solver: the
    bodies, the solver of the forces, the name of the kernel
    (decoupledibpm.cpp:65-81,172-173). *)
Definition d_setup (y : node) : res (nsbuilt * list (string * (body * list (list R))) * linsolver * string) :=
  do b <- ns_setup rd lambdify have_amgx load_options np y;
  do bs <- the_bodies (m_dim (nb_mesh b)) y;
  do f <- used (createLinSolver have_amgx load_options "forces" y);
  do name <- delta_word y;
  Ok (b, bs, f, name).

(** decoupledibpm.cpp:58-102 and applications/decoupledibpm/main.cpp:41-73. *)
Definition d_program (fuel : nat) (y : node) (d : disk) : res (option (dstate * disk * list (list R))) :=
  do s <- d_setup y;
  let '(b, bs, f, name) := s in
  d_main fuel (nb_conf b) (nb_mesh b) (nb_dec b) (nb_par b) (nb_types b) (nb_values b) name (map snd bs) (nb_t b) (nb_U b) (nb_p b)
    (fun x => probe_ops (nb_probes b) (x_ns x)) (convection (nb_mesh b) (nb_dec b)) (solver_result (nb_vsolver b)) (solver_result (nb_psolver b))
    (solver_result f) d.

(** oscillatingcylinder.cpp:40-54: frequency, diameter and Keulegan-Carpenter
    number, under "kinematics" of the first body. (The centre is read and not
    used, but a missing "center" throws.) *)
Definition read_kinematics (y : node) : res (R * R * R) :=
  do bs <- yget y "bodies"; do b0 <- yidx bs 0; do kin <- yget b0 "kinematics";
  do fn <- yget kin "f"; let f := as_real_or rd fn 0 in
  do dn <- yget kin "D"; let Dc := as_real_or rd dn 1 in
  do kn <- yget kin "KC"; let KC := as_real_or rd kn 0 in
  do cn <- yget kin "center"; do _ <- yidx cn 0; do _ <- yidx cn 1;
  Ok (f, Dc, KC).

(** The solver of the forces gets a new matrix in every step
    (rigidkinematics.cpp:137). *)
Variable forces_result : linsolver -> mat -> vec -> vec -> vec.

(** oscillatingcylinder.cpp:30-58 and main.cpp of the example. *)
Definition osc_program (fuel : nat) (y : node) (d : disk) : res (option (rstate * disk * list (list R))) :=
  do s <- d_setup y;
  let '(b, bs, fsol, name) := s in
  do k <- read_kinematics y;
  let '(f, Dc, KC) := k in
  do b0 <- Prelude.rd (map snd bs) 0;
  r_main fuel (nb_conf b) (nb_mesh b) (nb_dec b) (nb_par b) (nb_types b) (nb_values b) name (map snd bs)
    (mkMotion (osc_move f (osc_Am Dc KC) (snd b0)) (osc_vel (nranks (nb_dec b)) f (osc_Um f (osc_Am Dc KC)) (map fst (map snd bs))))
    (nb_t b) (nb_U b) (nb_p b) (fun s => probe_ops (nb_probes b) (x_ns (r_x s)))
    (convection (nb_mesh b) (nb_dec b)) (solver_result (nb_vsolver b)) (solver_result (nb_psolver b)) (forces_result fsol) d.
End Program.
