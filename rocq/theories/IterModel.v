(** The iterations file: writeLinSolversInfo of the applications, with what the
    linear solvers report about their last solve. *)
From Coq Require Import String.
From Verif Require Import Prelude ZSum RSum TypesModel GridModel IndexModel IndexSpec BoundaryModel OperatorModel OperatorSpec MatModel BnModel
  NSModel NameModel DriverModel BodyModel DeltaModel IbpmModel IbOutModel LinModel.
Local Open Scope R_scope.

(** What a KSP object keeps of its last solve: the number of iterations
    (KSPGetIterationNumber, linsolverksp.cpp:109-119, getIters) and the norm of
    the residual (KSPGetResidualNorm, linsolverksp.cpp:122-132, getResidual). *)
Definition report := (Z * R)%type.
(** KSPSolve as in LinModel.v, together with the report it leaves. *)
Definition rksp := vec -> vec -> vec * Z * report.
Definition bare (k : rksp) : ksp := fun g b => fst (k g b).

(** The reports kept by the velocity, Poisson and forces solvers. A new KSP has
    no iterations and a zero norm. *)
Record reports := mkReports { k_v : report; k_p : report; k_f : report }.
Definition no_reports : reports := mkReports (0%Z, 0) (0%Z, 0) (0%Z, 0).

(** linsolverksp.cpp:85-106 (LinSolverKSP::solve), with the report. *)
Definition rksp_solve (k : rksp) (x b : vec) : res (vec * report) :=
  let '(x', reason, rep) := k x b in
  if (reason <? 0)%Z then Err PETSC_ERR_CONV_FAILED else Ok (x', rep).

(** navierstokes.cpp:240-266, as [advance_ksp] (LinModel.v). *)
Definition advance_rep (n : Z) (m : mesh) (D : dec) (P : nspar) (O : nsops)
    (rhs_v : nsstate -> res (vec * nsstate)) (rhs_p : vec -> boundary -> res vec) (kv kp : rksp) (sK : nsstate * reports) : res (nsstate * reports) :=
  let '(s, K) := sK in
  let s := mkNS (s_t s + p_dt P) (s_ite s + 1) (s_U s) (s_p s) (s_dP s) (s_conv s) (s_diff s) (s_bc s) in
  do (rhs1, s) <- rhs_v s;
  do (U1, rv) <- rksp_solve kv (s_U s) rhs1;
  do rhs2 <- rhs_p U1 (s_bc s);
  do (dP, rp) <- rksp_solve kp (s_dP s) rhs2;
  let U2 := vaxpy U1 (-1) (mvec n (o_BNG O) dP) in
  let p2 := vaxpy (s_p s) 1 dP in
  do B2 <- bc_call m D (OpVals U2) (s_bc s);
  Ok (mkNS (s_t s) (s_ite s) U2 p2 dP (s_conv s) (s_diff s) B2, mkReports rv rp (k_f K)).

Definition ns_advance_rep m D P O conv kv kp := advance_rep (n_pressure m) m D P O (assembleRHSVelocity m D P O conv) (assembleRHSPoisson m D P O) kv kp.
Definition ib_advance_rep m D P O conv kv kp := advance_rep (ib_n O) m D P (ib_ns O) (rhs_velocity (ib_n O) m D P (ib_ns O) conv) (ib_assembleRHSPoisson m D P O) kv kp.

(** decoupledibpm.cpp:103-131, as [d_advance_ksp] (LinModel.v). *)
Definition d_advance_rep (m : mesh) (D : dec) (P : nspar) (O : nsops) (X : dops) (nf : Z) (conv : boundary -> vec -> res vec)
    (rhs_f : vec -> vec) (kv kp kf : rksp) (xK : dstate * reports) : res (dstate * reports) :=
  let '(x, K) := xK in
  let s := x_ns x in
  let s := mkNS (s_t s + p_dt P) (s_ite s + 1) (s_U s) (s_p s) (s_dP s) (s_conv s) (s_diff s) (s_bc s) in
  do (rhs1, s) <- d_assembleRHSVelocity m D P O X nf conv (x_f x) s;
  do (U1, rv) <- rksp_solve kv (s_U s) rhs1;
  let rhsf := rhs_f U1 in
  do (df, rf) <- rksp_solve kf (x_df x) rhsf;
  let U2 := vaxpy U1 1 (mvec nf (di_BNH X) df) in
  do rhs2 <- assembleRHSPoisson m D P O U2 (s_bc s);
  do (dP, rp) <- rksp_solve kp (s_dP s) rhs2;
  let U3 := vaxpy U2 (-1) (mvec (n_pressure m) (o_BNG O) dP) in
  let p2 := vaxpy (s_p s) 1 dP in
  let f2 := vaxpy (x_f x) 1 df in
  do B2 <- bc_call m D (OpVals U3) (s_bc s);
  Ok (mkDS (mkNS (s_t s) (s_ite s) U3 p2 dP (s_conv s) (s_diff s) B2) f2 df, mkReports rv rp rf).

(** rigidkinematics.cpp:69-81. *)
Definition r_advance_rep (m : mesh) (D : dec) (P : nspar) (O : nsops) (name : string) (mo : motion) (conv : boundary -> vec -> res vec)
    (kv kp : rksp) (kf : mat -> rksp) (sK : rstate * reports) : res (rstate * reports) :=
  let '(s, K) := sK in
  do s1 <- moveBodies m D P O name mo (s_t (x_ns (r_x s)) + p_dt P) s;
  do (x, K') <- d_advance_rep m D P O (r_ops s1) (n_forces m (r_bodies s1)) conv (r_assembleRHSForces m (r_ops s1) (r_UB s1))
            kv kp (kf (r_solver s1)) (r_x s1, K);
  Ok (mkRS x (r_bodies s1) (r_UB s1) (r_ops s1) (r_solver s1), K').

(** One line of the file: the step number, then iterations and residual of each
    solver (navierstokes.cpp:766-794: velocity, Poisson;
    decoupledibpm.cpp:383-417: velocity, Poisson, forces). The text
    itself ("%d\t%e") is in FmtModel.v. *)
Record line := mkLine { l_step : Z; l_reports : list report }.
Definition ns_line (ite : Z) (K : reports) : line := mkLine ite [k_v K; k_p K].
Definition d_line (ite : Z) (K : reports) : line := mkLine ite [k_v K; k_p K; k_f K].

(** The loop of main (main.cpp:63-70): advance, then write(), which begins with
    writeLinSolversInfo (navierstokes.cpp:276). The other files do not
    influence this one and are left out (DriverModel.v, IbOutModel.v). The lines
    so far are kept when a call returns an error code. *)
Fixpoint report_loop {St : Type} (fuel : nat) (ite : St -> Z) (conf : ioconf) (step : St * reports -> res (St * reports)) (ln : Z -> reports -> line)
    (sK : St * reports) (file : list line) : res (option St) * list line :=
  if (ite (fst sK) >=? c_nstart conf + c_nt conf)%Z then (Ok (Some (fst sK)), file)
  else
    match fuel with
    | O => (Ok None, file)
    | S f =>
        match step sK with
        | Ok sK' => report_loop f ite conf step ln sK' (file ++ [ln (ite (fst sK')) (snd sK')])
        | Err e => (Err e, file)
        | UB => (UB, file)
        end
    end.

(** The file of a run that starts from [s]: opened with FILE_MODE_WRITE, so
    empty (navierstokes.cpp:179-183). *)
Definition iterations_file {St : Type} (fuel : nat) (ite : St -> Z) (conf : ioconf) (step : St * reports -> res (St * reports)) (ln : Z -> reports -> line) (s : St) :=
  report_loop fuel ite conf step ln (s, no_reports) [].
