(** Specification vocabulary for immersed-boundary runs that are resumed with
    other linear solvers or on another process grid. *)
From Coq Require Import String.
From Verif Require Import Prelude ZSum RSum TypesModel GridModel IndexModel IndexSpec BoundaryModel BoundarySpec OperatorModel OperatorSpec MatModel
  NSModel NSSpec ConvModel ConvSpec NameModel DriverModel DriverSpec DecSpec BodyModel BodySpec DeltaModel DeltaSpec IbpmModel IbpmSpec IbOutModel IndepSpec IbGridSpec.
Local Open Scope R_scope.

(** The linear solvers return solutions of the systems they are given in the
    first k steps of the program: the coupled solver, the decoupled solver, and
    the decoupled solver with moving bodies. *)
Definition exact_coupled_program (conf : ioconf) (m : mesh) (D : dec) (P : nspar) (types : Z -> Z -> bctype) (values : Z -> Z -> R)
    (name : string) (bs : list (body * list (list R))) (t0 : R) (U0 p0 : vec) (vs ps : vec -> vec -> vec) (d : disk) (k : nat) : Prop :=
  forall O s0 s1 w, ib_init m D P types values name bs t0 (c_nstart conf) U0 p0 = Ok (O, s0) ->
    io_initial_with s_ite (ib_write_solution m D O) (ib_read_restart m D O (n_forces m bs)) conf s0 (run_ops (f_init_ops m conf) d) = Ok (s1, w) ->
    along (ib_advance m D P O (convection m D) vs ps) (coupled_exact_step m D P O (convection m D) vs ps) s1 k.
Definition exact_decoupled_program (conf : ioconf) (m : mesh) (D : dec) (P : nspar) (types : Z -> Z -> bctype) (values : Z -> Z -> R)
    (name : string) (bs : list (body * list (list R))) (t0 : R) (U0 p0 : vec) (vs ps fs : vec -> vec -> vec) (d : disk) (k : nat) : Prop :=
  forall O X x0 x1 w, d_init m D P types values name bs t0 (c_nstart conf) U0 p0 = Ok (O, X, x0) ->
    io_initial_with x_ite (d_write_solution m D) (d_read_restart m D (n_forces m bs)) conf x0 (run_ops (f_init_ops m conf) d) = Ok (x1, w) ->
    along (d_advance m D P O X (n_forces m bs) (convection m D) (d_assembleRHSForces m X) vs ps fs)
      (decoupled_exact_step m D P O X (n_forces m bs) (convection m D) (d_assembleRHSForces m X) vs ps fs) x1 k.
Definition exact_moving_program (conf : ioconf) (m : mesh) (D : dec) (P : nspar) (types : Z -> Z -> bctype) (values : Z -> Z -> R)
    (name : string) (bs : list (body * list (list R))) (mo : motion) (t0 : R) (U0 p0 : vec) (vs ps : vec -> vec -> vec) (fs : mat -> vec -> vec -> vec) (d : disk) (k : nat) : Prop :=
  forall O s0 s1 w, r_init m D P types values name bs t0 (c_nstart conf) U0 p0 = Ok (O, s0) ->
    io_initial_with r_ite (fun path s => d_write_solution m D path (r_x s)) (r_read_restart m D) conf s0 (run_ops (f_init_ops m conf) d) = Ok (s1, w) ->
    along (r_advance m D P O name mo (convection m D) vs ps fs) (moving_exact_step m D P O name mo (convection m D) vs ps fs) s1 k.

(** The operators of the bodies that the decoupled program builds when it
    starts lose no force. *)
Definition program_felt (m : mesh) (D : dec) (P : nspar) (types : Z -> Z -> bctype) (values : Z -> Z -> R)
    (name : string) (bs : list (body * list (list R))) (t0 : R) (U0 p0 : vec) : Prop :=
  forall n O X x0, d_init m D P types values name bs t0 n U0 p0 = Ok (O, X, x0) -> forces_felt m (n_forces m bs) X.

(** The unknowns of the forces have the same places in the two distributed
    vectors. *)
Definition same_order (m : mesh) (D1 D2 : dec) (bs1 bs2 : list (body * list (list R))) : Prop :=
  body_layout (nranks D1) (m_dim m) (map fst bs1) = body_layout (nranks D2) (m_dim m) (map fst bs2).
