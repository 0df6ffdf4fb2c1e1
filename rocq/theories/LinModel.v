(** Linear solves that can fail: linsolverksp.cpp, and the programs with them.
    The other models take the solution returned by a solve as a function; here
    a solve also reports how it ended. *)
From Coq Require Import String.
From Verif Require Import Prelude ZSum RSum TypesModel GridModel IndexModel IndexSpec BoundaryModel OperatorModel OperatorSpec MatModel BnModel
  NSModel NameModel DriverModel BodyModel DeltaModel IbpmModel IbOutModel.
Local Open Scope R_scope.

(** petscerror.h. *)
Definition PETSC_ERR_CONV_FAILED : Z := 82.

(** A KSP object with its matrix and options: from the entries of x before the
    call (the initial guess) and the right-hand side, the entries of x after
    KSPSolve and the KSPConvergedReason. KSPSolve itself is a parameter. *)
Definition ksp := vec -> vec -> vec * Z.

(** src/linsolver/linsolverksp.cpp:85-106 (LinSolverKSP::solve); the message on
    the terminal is not modelled. *)
Definition ksp_solve (k : ksp) (x b : vec) : res vec :=
  let (x', reason) := k x b in
  if (reason <? 0)%Z then Err PETSC_ERR_CONV_FAILED else Ok x'.

(** navierstokes.cpp:240-266 with 524-537 and 566-636, as [advance_with]
    (NSModel.v) with solves that can fail. *)
Definition advance_ksp (n : Z) (m : mesh) (D : dec) (P : nspar) (O : nsops)
    (rhs_v : nsstate -> res (vec * nsstate)) (rhs_p : vec -> boundary -> res vec) (kv kp : ksp) (s : nsstate) : res nsstate :=
  let s := mkNS (s_t s + p_dt P) (s_ite s + 1) (s_U s) (s_p s) (s_dP s) (s_conv s) (s_diff s) (s_bc s) in
  do (rhs1, s) <- rhs_v s;
  do U1 <- ksp_solve kv (s_U s) rhs1;
  do rhs2 <- rhs_p U1 (s_bc s);
  do dP <- ksp_solve kp (s_dP s) rhs2;
  let U2 := vaxpy U1 (-1) (mvec n (o_BNG O) dP) in
  let p2 := vaxpy (s_p s) 1 dP in
  do B2 <- bc_call m D (OpVals U2) (s_bc s);
  Ok (mkNS (s_t s) (s_ite s) U2 p2 dP (s_conv s) (s_diff s) B2).

(** The steps of the Navier-Stokes solver and of the coupled
    immersed-boundary solver (ibpm.h: the same advance). *)
Definition ns_advance_ksp m D P O conv kv kp := advance_ksp (n_pressure m) m D P O (assembleRHSVelocity m D P O conv) (assembleRHSPoisson m D P O) kv kp.
Definition ib_advance_ksp m D P O conv kv kp := advance_ksp (ib_n O) m D P (ib_ns O) (rhs_velocity (ib_n O) m D P (ib_ns O) conv) (ib_assembleRHSPoisson m D P O) kv kp.

(** decoupledibpm.cpp:103-131 with the solves, as [d_advance] (IbpmModel.v). *)
Definition d_advance_ksp (m : mesh) (D : dec) (P : nspar) (O : nsops) (X : dops) (nf : Z) (conv : boundary -> vec -> res vec)
    (rhs_f : vec -> vec) (kv kp kf : ksp) (x : dstate) : res dstate :=
  let s := x_ns x in
  let s := mkNS (s_t s + p_dt P) (s_ite s + 1) (s_U s) (s_p s) (s_dP s) (s_conv s) (s_diff s) (s_bc s) in
  do (rhs1, s) <- d_assembleRHSVelocity m D P O X nf conv (x_f x) s;
  do U1 <- ksp_solve kv (s_U s) rhs1;
  let rhsf := rhs_f U1 in
  do df <- ksp_solve kf (x_df x) rhsf;
  let U2 := vaxpy U1 1 (mvec nf (di_BNH X) df) in
  do rhs2 <- assembleRHSPoisson m D P O U2 (s_bc s);
  do dP <- ksp_solve kp (s_dP s) rhs2;
  let U3 := vaxpy U2 (-1) (mvec (n_pressure m) (o_BNG O) dP) in
  let p2 := vaxpy (s_p s) 1 dP in
  let f2 := vaxpy (x_f x) 1 df in
  do B2 <- bc_call m D (OpVals U3) (s_bc s);
  Ok (mkDS (mkNS (s_t s) (s_ite s) U3 p2 dP (s_conv s) (s_diff s) B2) f2 df).

(** rigidkinematics.cpp:69-81. *)
Definition r_advance_ksp (m : mesh) (D : dec) (P : nspar) (O : nsops) (name : string) (mo : motion) (conv : boundary -> vec -> res vec)
    (kv kp : ksp) (kf : mat -> ksp) (s : rstate) : res rstate :=
  do s1 <- moveBodies m D P O name mo (s_t (x_ns (r_x s)) + p_dt P) s;
  do x <- d_advance_ksp m D P O (r_ops s1) (n_forces m (r_bodies s1)) conv (r_assembleRHSForces m (r_ops s1) (r_UB s1))
            kv kp (kf (r_solver s1)) (r_x s1);
  Ok (mkRS x (r_bodies s1) (r_UB s1) (r_ops s1) (r_solver s1)).

(** The loop of main (applications/navierstokes/main.cpp:63-70 and the same in
    the main.cpp of the other applications) as [drive] (DriverModel.v) and
    [f_drive] (IbOutModel.v), keeping the disk and what was recorded so far
    when a call returns an error code: CHKERRQ returns it from main. [write]
    gives the operations of one call and what is recorded of it. [Ok None]: not
    ended after [fuel] iterations. After UB the disk is meaningless. *)
Definition outcome (St X : Type) : Type := (res (option St) * disk * list X)%type.
Fixpoint loop_all {St X : Type} (fuel : nat) (ite : St -> Z) (conf : ioconf) (step : St -> res St) (write : St -> disk -> res (list fsop * X))
    (s : St) (d : disk) : outcome St X :=
  if (ite s >=? c_nstart conf + c_nt conf)%Z then (Ok (Some s), d, [])
  else
    match fuel with
    | O => (Ok None, d, [])
    | S f =>
        match step s with
        | Ok s' =>
            match write s' d with
            | Ok (ops, x) => let '(r, d2, tr) := loop_all f ite conf step write s' (run_ops ops d) in (r, d2, x :: tr)
            | Err e => (Err e, d, [])
            | UB => (UB, d, [])
            end
        | Err e => (Err e, d, [])
        | UB => (UB, d, [])
        end
    end.
(** An error code of an earlier call. *)
Definition stop {A St X : Type} (r : res A) (d : disk) : outcome St X := (match r with Err e => Err e | _ => UB end, d, []).

(** main.cpp:45-78 with init (navierstokes.cpp:93-204), as [ns_main]. *)
Definition ns_main_all (fuel : nat) (conf : ioconf) (m : mesh) (D : dec) (P : nspar) (types : Z -> Z -> bctype) (values : Z -> Z -> R)
    (t0 : R) (U0 p0 : vec) (mon : nsstate -> list fsop) (conv : boundary -> vec -> res vec) (kv kp : ksp) (d : disk) : outcome nsstate (Z * list fsop) :=
  match ns_init m D P types values t0 (c_nstart conf) U0 p0 with
  | Ok (ops, s0) =>
      let d1 := run_ops (init_ops m conf) d in
      match io_initial conf m D s0 d1 with
      | Ok (s1, w) =>
          let '(r, d2, tr) := loop_all fuel s_ite conf (ns_advance_ksp m D P ops conv kv kp)
                                (fun s d => do o <- write_step conf m D mon s d; Ok (o, (s_ite s, o))) s1 (run_ops w d1) in
          (r, d2, (s_ite s1, w) :: tr)
      | e => stop e d1
      end
  | e => stop e d
  end.

(** applications/ibpm/main.cpp:39-75, as [ib_main]. *)
Definition ib_main_all (fuel : nat) (conf : ioconf) (m : mesh) (D : dec) (P : nspar) (types : Z -> Z -> bctype) (values : Z -> Z -> R)
    (name : string) (bodies : list (body * list (list R))) (t0 : R) (U0 p0 : vec) (mon : nsstate -> list fsop)
    (conv : boundary -> vec -> res vec) (kv kp : ksp) (d : disk) : outcome nsstate (list R) :=
  match ib_init m D P types values name bodies t0 (c_nstart conf) U0 p0 with
  | Ok (IO, s0) =>
      let d1 := run_ops (f_init_ops m conf) d in
      match io_initial_with s_ite (ib_write_solution m D IO) (ib_read_restart m D IO (n_forces m bodies)) conf s0 d1 with
      | Ok (s1, w) => loop_all fuel s_ite conf (ib_advance_ksp m D P IO conv kv kp) (ib_write conf m D IO bodies mon) s1 (run_ops w d1)
      | e => stop e d1
      end
  | e => stop e d
  end.

(** applications/decoupledibpm/main.cpp:39-75, as [d_main]. *)
Definition d_main_all (fuel : nat) (conf : ioconf) (m : mesh) (D : dec) (P : nspar) (types : Z -> Z -> bctype) (values : Z -> Z -> R)
    (name : string) (bodies : list (body * list (list R))) (t0 : R) (U0 p0 : vec) (mon : dstate -> list fsop)
    (conv : boundary -> vec -> res vec) (kv kp kf : ksp) (d : disk) : outcome dstate (list R) :=
  match d_init m D P types values name bodies t0 (c_nstart conf) U0 p0 with
  | Ok (OX, x0) =>
      let d1 := run_ops (f_init_ops m conf) d in
      match io_initial_with x_ite (d_write_solution m D) (d_read_restart m D (n_forces m bodies)) conf x0 d1 with
      | Ok (x1, w) => loop_all fuel x_ite conf (d_advance_ksp m D P (fst OX) (snd OX) (n_forces m bodies) conv (d_assembleRHSForces m (snd OX)) kv kp kf)
                        (d_write conf m D bodies mon) x1 (run_ops w d1)
      | e => stop e d1
      end
  | e => stop e d
  end.

(** The programs with moving bodies, as [r_main]. *)
Definition r_main_all (fuel : nat) (conf : ioconf) (m : mesh) (D : dec) (P : nspar) (types : Z -> Z -> bctype) (values : Z -> Z -> R)
    (name : string) (bodies : list (body * list (list R))) (mo : motion) (t0 : R) (U0 p0 : vec) (mon : rstate -> list fsop)
    (conv : boundary -> vec -> res vec) (kv kp : ksp) (kf : mat -> ksp) (d : disk) : outcome rstate (list R) :=
  match r_init m D P types values name bodies t0 (c_nstart conf) U0 p0 with
  | Ok (ops, s0) =>
      let d1 := run_ops (f_init_ops m conf) d in
      match io_initial_with r_ite (fun path s => d_write_solution m D path (r_x s)) (r_read_restart m D) conf s0 d1 with
      | Ok (s1, w) => loop_all fuel r_ite conf (r_advance_ksp m D P ops name mo conv kv kp kf) (r_write_all conf m D mon) s1 (run_ops w d1)
      | e => stop e d1
      end
  | e => stop e d
  end.
