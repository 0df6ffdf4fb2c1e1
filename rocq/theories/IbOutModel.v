(** Model of the files and of the main loops of the immersed-boundary solvers:
    applications/ibpm/{ibpm.cpp, main.cpp},
    applications/decoupledibpm/{decoupledibpm.cpp, main.cpp},
    applications/rigidkinematics/rigidkinematics.cpp. The files of the bodies
    are modelled in IbpmModel.v. *)
From Coq Require Import String.
From Verif Require Import Prelude ZSum RSum TypesModel GridModel IndexModel IndexSpec BoundaryModel OperatorModel OperatorSpec MatModel BnModel
  NSModel NameModel DriverModel BodyModel DeltaModel IbpmModel.
Local Open Scope R_scope.

(** * What the solvers inherit *)

(** NavierStokesSolver::write (navierstokes.cpp:269-308) with the virtual
    writeSolutionHDF5 and writeRestartDataHDF5 as parameters. *)
Definition write_step_with {St : Type} (ite : St -> Z) (wsol : string -> St -> list fsop) (wres : string -> St -> disk -> list fsop)
    (conf : ioconf) (mon : St -> list fsop) (s : St) (d : disk) : res (list fsop) :=
  let path := solution_path (c_out conf) (ite s) in
  let ops1 := [PutText (iterations_path (c_out conf) (c_nstart conf)) (ite s)] in
  if (c_nsave conf =? 0)%Z then UB
  else
    let ops2 := if (Z.rem (ite s) (c_nsave conf) =? 0)%Z
                then wsol path s ++ [OpenNew (log_path (c_logs conf) (ite s)); Close (log_path (c_logs conf) (ite s))]
                else [] in
    if (c_nrestart conf =? 0)%Z then UB
    else
      let ops3 := if (Z.rem (ite s) (c_nrestart conf) =? 0)%Z then wres path s (run_ops (ops1 ++ ops2) d) else [] in
      Ok (ops1 ++ ops2 ++ ops3 ++ mon s).

(** ioInitialData (navierstokes.cpp:207-237) with the virtual functions as
    parameters. *)
Definition io_initial_with {St : Type} (ite : St -> Z) (wsol : string -> St -> list fsop) (rres : string -> disk -> St -> res St)
    (conf : ioconf) (s : St) (d : disk) : res (St * list fsop) :=
  let path := solution_path (c_out conf) (ite s) in
  if (ite s =? 0)%Z then Ok (s, wsol path s)
  else do s' <- rres path d s; Ok (s', []).

(** The loop of main (applications/*/main.cpp). [write] gives the file
    operations of one call and the line it appends to the forces file. The
    result is None when the loop has not ended after [fuel] iterations;
    otherwise the last state, the disk and the lines of the forces file. *)
Fixpoint f_drive {St : Type} (fuel : nat) (ite : St -> Z) (conf : ioconf) (step : St -> res St) (write : St -> disk -> res (list fsop * list R))
    (s : St) (d : disk) : res (option (St * disk * list (list R))) :=
  if (ite s >=? c_nstart conf + c_nt conf)%Z then Ok (Some (s, d, []))
  else
    match fuel with
    | O => Ok None
    | S f =>
        do s' <- step s;
        do (ops, line) <- write s' d;
        do r <- f_drive f ite conf step write s' (run_ops ops d);
        Ok (match r with Some (s2, d2, ls) => Some (s2, d2, line :: ls) | None => None end)
    end.

(** * Forces in files *)

(** VecView and VecLoad of the vector of the forces, a plain parallel vector:
    storage order (ibpm.cpp:347-351, 376-382; decoupledibpm.cpp:319-382). *)
Definition force_data (nf : Z) (f : vec) : list R := map f (zrange 0 nf).
Definition put_force (path : string) (nf : Z) (f : vec) : list fsop :=
  [OpenApp path; Put path "/force" (force_data nf f); Close path].
Definition load_force (path : string) (nf : Z) (d : disk) (f : vec) : res vec :=
  do l <- load d path "/force" nf; Ok (fun i => match nthZ l i with Some x => x | None => f i end).

(** The local arrays of a vector with local sizes [l]. *)
Definition local_arrays (l : Z -> Z) (v : vec) (r : Z) : list R := map v (zrange (isum l 0 r) (isum l 0 r + l r)).

(** writeForcesASCII (ibpm.cpp:387-423, decoupledibpm.cpp:420-453): the numbers
    of one line. Printing with 9 significant digits is not modelled. *)
Definition forces_line (size dim : Z) (bodies : list body) (t : R) (f : vec) : res (list R) :=
  do avg <- bp_calculateAvgForces size dim bodies (local_arrays (bp_nLclAllProcs dim bodies) f);
  do cols <- mapM (fun i => do row <- rd avg i; mapM (fun d => rd row d) (zrange 0 dim)) (zrange 0 (lenZ bodies));
  Ok (t :: concat cols).

(** init (ibpm.cpp:69-72, decoupledibpm.cpp:86-89): the forces file is created
    after the grid file and the iterations file. *)
Definition forces_path (out : string) (n : Z) : string := (out ++ "/forces-" ++ to_string n ++ ".txt")%string.
Definition f_init_ops (m : mesh) (conf : ioconf) : list fsop := init_ops m conf ++ [OpenNew (forces_path (c_out conf) (c_nstart conf))].

(** * The coupled solver *)

(** The state with another pressure. *)
Definition with_p (p : vec) (s : nsstate) : nsstate := mkNS (s_t s) (s_ite s) (s_U s) p (s_dP s) (s_conv s) (s_diff s) (s_bc s).
(** The couple made of a pressure and forces. *)
Definition nest_join (Lay : list (Z * Z)) (p f : vec) : vec :=
  fun i => match nthZ Lay i with Some (b, k) => if (b =? 0)%Z then p k else f k | None => 0 end.

(** ibpm.cpp:316-335: the pressure part of the couple is written. *)
Definition ib_write_solution (m : mesh) (D : dec) (O : ibops) (path : string) (s : nsstate) : list fsop :=
  write_solution m D path (with_p (nest_sub (ib_lay O) 0 (s_p s)) s).
(** ibpm.cpp:338-352. *)
Definition ib_write_restart (m : mesh) (D : dec) (O : ibops) (nf : Z) (path : string) (s : nsstate) (d : disk) : list fsop :=
  write_restart m D path (with_p (nest_sub (ib_lay O) 0 (s_p s)) s) d ++ put_force path nf (nest_sub (ib_lay O) 1 (s_p s)).
(** ibpm.cpp:355-384. *)
Definition ib_read_restart (m : mesh) (D : dec) (O : ibops) (nf : Z) (path : string) (d : disk) (s : nsstate) : res nsstate :=
  do s' <- read_restart m D path d (with_p (nest_sub (ib_lay O) 0 (s_p s)) s);
  do f <- load_force path nf d (nest_sub (ib_lay O) 1 (s_p s));
  Ok (with_p (nest_join (ib_lay O) (s_p s') f) s').
(** ibpm.cpp:85-98. *)
Definition ib_write (conf : ioconf) (m : mesh) (D : dec) (O : ibops) (bodies : list (body * list (list R))) (mon : nsstate -> list fsop)
    (s : nsstate) (d : disk) : res (list fsop * list R) :=
  do ops <- write_step_with s_ite (ib_write_solution m D O) (ib_write_restart m D O (n_forces m bodies)) conf mon s d;
  do line <- forces_line (nranks D) (m_dim m) (map fst bodies) (s_t s) (nest_sub (ib_lay O) 1 (s_p s));
  Ok (ops, line).
(** applications/ibpm/main.cpp:39-75. *)
Definition ib_main (fuel : nat) (conf : ioconf) (m : mesh) (D : dec) (P : nspar) (types : Z -> Z -> bctype) (values : Z -> Z -> R)
    (name : string) (bodies : list (body * list (list R))) (t0 : R) (U0 p0 : vec) (mon : nsstate -> list fsop)
    (conv : boundary -> vec -> res vec) (vs ps : vec -> vec -> vec) (d : disk) : res (option (nsstate * disk * list (list R))) :=
  do (IO, s0) <- ib_init m D P types values name bodies t0 (c_nstart conf) U0 p0;
  let d1 := run_ops (f_init_ops m conf) d in
  do (s1, w) <- io_initial_with s_ite (ib_write_solution m D IO) (ib_read_restart m D IO (n_forces m bodies)) conf s0 d1;
  f_drive fuel s_ite conf (ib_advance m D P IO conv vs ps) (ib_write conf m D IO bodies mon) s1 (run_ops w d1).

(** * The decoupled solver *)

Definition x_ite (x : dstate) : Z := s_ite (x_ns x).
(** navierstokes.cpp:615-634 (not overridden). *)
Definition d_write_solution (m : mesh) (D : dec) (path : string) (x : dstate) : list fsop := write_solution m D path (x_ns x).
(** decoupledibpm.cpp:319-350. *)
Definition d_write_restart (m : mesh) (D : dec) (nf : Z) (path : string) (x : dstate) (d : disk) : list fsop :=
  write_restart m D path (x_ns x) d ++ put_force path nf (x_f x).
(** decoupledibpm.cpp:353-382. *)
Definition d_read_restart (m : mesh) (D : dec) (nf : Z) (path : string) (d : disk) (x : dstate) : res dstate :=
  do s' <- read_restart m D path d (x_ns x);
  do f <- load_force path nf d (x_f x);
  Ok (mkDS s' f (x_df x)).
(** decoupledibpm.cpp:134-147. *)
Definition d_write (conf : ioconf) (m : mesh) (D : dec) (bodies : list (body * list (list R))) (mon : dstate -> list fsop)
    (x : dstate) (d : disk) : res (list fsop * list R) :=
  do ops <- write_step_with x_ite (d_write_solution m D) (d_write_restart m D (n_forces m bodies)) conf mon x d;
  do line <- forces_line (nranks D) (m_dim m) (map fst bodies) (s_t (x_ns x)) (x_f x);
  Ok (ops, line).
(** applications/decoupledibpm/main.cpp:39-75. *)
Definition d_main (fuel : nat) (conf : ioconf) (m : mesh) (D : dec) (P : nspar) (types : Z -> Z -> bctype) (values : Z -> Z -> R)
    (name : string) (bodies : list (body * list (list R))) (t0 : R) (U0 p0 : vec) (mon : dstate -> list fsop)
    (conv : boundary -> vec -> res vec) (vs ps fs : vec -> vec -> vec) (d : disk) : res (option (dstate * disk * list (list R))) :=
  do (OX, x0) <- d_init m D P types values name bodies t0 (c_nstart conf) U0 p0;
  let d1 := run_ops (f_init_ops m conf) d in
  do (x1, w) <- io_initial_with x_ite (d_write_solution m D) (d_read_restart m D (n_forces m bodies)) conf x0 d1;
  f_drive fuel x_ite conf (d_advance m D P (fst OX) (snd OX) (n_forces m bodies) conv (d_assembleRHSForces m (snd OX)) vs ps fs)
    (d_write conf m D bodies mon) x1 (run_ops w d1).

(** * Moving bodies *)

Definition r_ite (s : rstate) : Z := x_ite (r_x s).
(** The functions of the decoupled solver, on the larger state
    (rigidkinematics.cpp:84-116 without the files of the bodies). *)
Definition r_write_all (conf : ioconf) (m : mesh) (D : dec) (mon : rstate -> list fsop) (s : rstate) (d : disk) : res (list fsop * list R) :=
  do ops <- write_step_with r_ite (fun path s => d_write_solution m D path (r_x s))
              (fun path s => d_write_restart m D (n_forces m (r_bodies s)) path (r_x s)) conf mon s d;
  do line <- forces_line (nranks D) (m_dim m) (map fst (r_bodies s)) (s_t (x_ns (r_x s))) (x_f (r_x s));
  Ok (ops, line).
Definition r_read_restart (m : mesh) (D : dec) (path : string) (d : disk) (s : rstate) : res rstate :=
  do x <- d_read_restart m D (n_forces m (r_bodies s)) path d (r_x s);
  Ok (mkRS x (r_bodies s) (r_UB s) (r_ops s) (r_solver s)).
Definition r_main (fuel : nat) (conf : ioconf) (m : mesh) (D : dec) (P : nspar) (types : Z -> Z -> bctype) (values : Z -> Z -> R)
    (name : string) (bodies : list (body * list (list R))) (mo : motion) (t0 : R) (U0 p0 : vec) (mon : rstate -> list fsop)
    (conv : boundary -> vec -> res vec) (vs ps : vec -> vec -> vec) (fs : mat -> vec -> vec -> vec) (d : disk)
    : res (option (rstate * disk * list (list R))) :=
  do (ops, s0) <- r_init m D P types values name bodies t0 (c_nstart conf) U0 p0;
  let d1 := run_ops (f_init_ops m conf) d in
  do (s1, w) <- io_initial_with r_ite (fun path s => d_write_solution m D path (r_x s)) (r_read_restart m D) conf s0 d1;
  f_drive fuel r_ite conf (r_advance m D P ops name mo conv vs ps fs) (r_write_all conf m D mon) s1 (run_ops w d1).
