(** What the lines of the iterations file should say. *)
From Coq Require Import String.
From Verif Require Import Prelude ZSum RSum TypesModel GridModel IndexModel IndexSpec BoundaryModel OperatorModel OperatorSpec MatModel BnModel
  NSModel NameModel DriverModel BodyModel DeltaModel IbpmModel IbpmSpec IbOutModel LinModel LinSpec IterModel ResidualSpec.
Local Open Scope R_scope.

(** The solution of a solve and what the solver reports about it. *)
Definition answer (k : rksp) : vec -> vec -> vec := returned (bare k).
Definition told (k : rksp) (g b : vec) : report := snd (k g b).

(** The solver reports the Euclidean norm of the residual b - A x of the
    solution x it returns. (KSP does with -ksp_norm_type unpreconditioned.) *)
Definition reports_residual (n : Z) (A : mat) (k : rksp) : Prop :=
  forall g b, snd (told k g b) = sqrt (norm2 n (residual n A (answer k g b) b)).

(** The reports of the solves made by a step that starts from s: the
    right-hand sides are those of this step. *)
Definition ns_step_reports (m : mesh) (D : dec) (P : nspar) (ops : nsops) (conv : boundary -> vec -> res vec) (kv kp : rksp)
    (s : nsstate) (rv rp : report) : Prop :=
  exists rhs1 s1 b, assembleRHSVelocity m D P ops conv (begun P s) = Ok (rhs1, s1) /\
    assembleRHSPoisson m D P ops (answer kv (s_U s) rhs1) (s_bc s1) = Ok b /\
    rv = told kv (s_U s) rhs1 /\ rp = told kp (s_dP s) b.
Definition ib_step_reports (m : mesh) (D : dec) (P : nspar) (IO : ibops) (conv : boundary -> vec -> res vec) (kv kp : rksp)
    (s : nsstate) (rv rp : report) : Prop :=
  exists rhs1 s1 b, rhs_velocity (ib_n IO) m D P (ib_ns IO) conv (begun P s) = Ok (rhs1, s1) /\
    ib_assembleRHSPoisson m D P IO (answer kv (s_U s) rhs1) (s_bc s1) = Ok b /\
    rv = told kv (s_U s) rhs1 /\ rp = told kp (s_dP s) b.
Definition d_step_reports (m : mesh) (D : dec) (P : nspar) (ops : nsops) (X : dops) (nf : Z) (conv : boundary -> vec -> res vec)
    (rhs_f : vec -> vec) (kv kp kf : rksp) (x : dstate) (rv rp rf : report) : Prop :=
  exists rhs1 s1 b, d_assembleRHSVelocity m D P ops X nf conv (x_f x) (begun P (x_ns x)) = Ok (rhs1, s1) /\
    let U1 := answer kv (s_U (x_ns x)) rhs1 in
    let df := answer kf (x_df x) (rhs_f U1) in
    assembleRHSPoisson m D P ops (vaxpy U1 1 (mvec nf (di_BNH X) df)) (s_bc s1) = Ok b /\
    rv = told kv (s_U (x_ns x)) rhs1 /\ rp = told kp (s_dP (x_ns x)) b /\ rf = told kf (x_df x) (rhs_f U1).

(** A file [lines] of a run of the program whose steps are [step] (with solvers
    that always answer) and [kstep] (with solvers that may give up), started
    from s0 at step nstart: line j is numbered nstart + j + 1 and tells the
    reports [rep] of the step from the state after j steps to the next state; if the program ended, there is a line for each of its nt steps
    and it ended in the state after nt steps; if a step returned an error code
    the lines are those of the steps before it. *)
Definition describes {St : Type} (step kstep : St -> res St) (rep : St -> St -> list report -> Prop) (conf : ioconf) (s0 : St)
    (r : res (option St)) (lines : list line) : Prop :=
  (forall j l, nth_error lines j = Some l ->
     exists s s2, run_steps step j s0 = Ok s /\ step s = Ok s2 /\ l_step l = (c_nstart conf + Z.of_nat j + 1)%Z /\ rep s s2 (l_reports l)) /\
  (lenZ lines <= Z.max 0 (c_nt conf))%Z /\
  (forall s2, r = Ok (Some s2) -> lenZ lines = Z.max 0 (c_nt conf) /\ run_steps step (length lines) s0 = Ok s2) /\
  (forall e, r = Err e -> exists s, run_steps step (length lines) s0 = Ok s /\ kstep s = Err e).
