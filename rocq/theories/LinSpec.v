(** Specification vocabulary for linear solves that can fail. *)
From Coq Require Import String.
From Verif Require Import Prelude ZSum RSum TypesModel GridModel IndexModel IndexSpec BoundaryModel OperatorModel OperatorSpec MatModel BnModel
  NSModel NameModel DriverModel BodyModel DeltaModel IbpmModel IbpmSpec IbOutModel LinModel.
Local Open Scope R_scope.

(** The solve ended with a non-negative KSPConvergedReason. *)
Definition converged (k : ksp) (g b : vec) : Prop := (0 <= snd (k g b))%Z.
(** The solution it returned, converged or not. *)
Definition returned (k : ksp) : vec -> vec -> vec := fun g b => fst (k g b).

(** The momentum solve of the step from s and the Poisson solve that follows. *)
Definition momentum_converged (P : nspar) (rhs_v : nsstate -> res (vec * nsstate)) (kv : ksp) (s : nsstate) : Prop :=
  forall rhs1 s1, rhs_v (begun P s) = Ok (rhs1, s1) -> converged kv (s_U s1) rhs1.
Definition poisson_converged (P : nspar) (rhs_v : nsstate -> res (vec * nsstate)) (rhs_p : vec -> boundary -> res vec) (kv kp : ksp) (s : nsstate) : Prop :=
  forall rhs1 s1 b, rhs_v (begun P s) = Ok (rhs1, s1) -> rhs_p (returned kv (s_U s1) rhs1) (s_bc s1) = Ok b -> converged kp (s_dP s1) b.
(** Both solves of a step of the Navier-Stokes solver. *)
Definition step_converged (m : mesh) (D : dec) (P : nspar) (O : nsops) (conv : boundary -> vec -> res vec) (kv kp : ksp) (s : nsstate) : Prop :=
  momentum_converged P (assembleRHSVelocity m D P O conv) kv s /\
  poisson_converged P (assembleRHSVelocity m D P O conv) (assembleRHSPoisson m D P O) kv kp s.
(** ... and of the coupled solver. *)
Definition ib_step_converged (m : mesh) (D : dec) (P : nspar) (O : ibops) (conv : boundary -> vec -> res vec) (kv kp : ksp) (s : nsstate) : Prop :=
  momentum_converged P (rhs_velocity (ib_n O) m D P (ib_ns O) conv) kv s /\
  poisson_converged P (rhs_velocity (ib_n O) m D P (ib_ns O) conv) (ib_assembleRHSPoisson m D P O) kv kp s.
(** The three solves of a step of the decoupled solver. *)
Definition d_step_converged (m : mesh) (D : dec) (P : nspar) (O : nsops) (X : dops) (nf : Z) (conv : boundary -> vec -> res vec)
    (rhs_f : vec -> vec) (kv kp kf : ksp) (x : dstate) : Prop :=
  forall rhs1 s1, d_assembleRHSVelocity m D P O X nf conv (x_f x) (begun P (x_ns x)) = Ok (rhs1, s1) ->
    converged kv (s_U s1) rhs1 /\
    let U1 := returned kv (s_U s1) rhs1 in
    converged kf (x_df x) (rhs_f U1) /\
    forall b, assembleRHSPoisson m D P O (vaxpy U1 1 (mvec nf (di_BNH X) (returned kf (x_df x) (rhs_f U1)))) (s_bc s1) = Ok b -> converged kp (s_dP s1) b.
(** ... and of the decoupled solver with moving bodies, once they have moved. *)
Definition r_step_converged (m : mesh) (D : dec) (P : nspar) (O : nsops) (name : string) (mo : motion) (conv : boundary -> vec -> res vec)
    (kv kp : ksp) (kf : mat -> ksp) (s : rstate) : Prop :=
  forall s1, moveBodies m D P O name mo (s_t (x_ns (r_x s)) + p_dt P) s = Ok s1 ->
    d_step_converged m D P O (r_ops s1) (n_forces m (r_bodies s1)) conv (r_assembleRHSForces m (r_ops s1) (r_UB s1)) kv kp (kf (r_solver s1)) (r_x s1).

(** The configuration with another number of steps. *)
Definition with_nt (conf : ioconf) (n : Z) : ioconf := mkConf (c_out conf) (c_logs conf) (c_nstart conf) n (c_nsave conf) (c_nrestart conf).
