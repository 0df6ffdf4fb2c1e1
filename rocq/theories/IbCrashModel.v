(** The order of the file operations of the immersed-boundary programs:
    applications/{ibpm,decoupledibpm,rigidkinematics}/main.cpp. The programs are
    those of IbOutModel.v; here the operations are kept, not only the disk that
    they leave. *)
From Coq Require Import String.
From Verif Require Import Prelude ZSum RSum TypesModel GridModel IndexModel IndexSpec BoundaryModel OperatorModel OperatorSpec MatModel BnModel
  NSModel NameModel DriverModel BodyModel DeltaModel IbpmModel IbOutModel.
Local Open Scope R_scope.

(** The loop of main (applications/*/main.cpp:63-70, as [f_drive]): the
    operations of every write() with its step number. *)
Fixpoint f_ops {St : Type} (fuel : nat) (ite : St -> Z) (conf : ioconf) (step : St -> res St) (write : St -> disk -> res (list fsop * list R))
    (s : St) (d : disk) : list (Z * list fsop) :=
  if (ite s >=? c_nstart conf + c_nt conf)%Z then []
  else
    match fuel with
    | O => []
    | S f =>
        match step s with
        | Ok s' => match write s' d with
                   | Ok (ops, _) => (ite s', ops) :: f_ops f ite conf step write s' (run_ops ops d)
                   | _ => []
                   end
        | _ => []
        end
    end.

(** applications/ibpm/main.cpp:39-75, as [ib_main]: the operations before the
    loop, then those of the steps. *)
Definition ib_file_ops (fuel : nat) (conf : ioconf) (m : mesh) (D : dec) (P : nspar) (types : Z -> Z -> bctype) (values : Z -> Z -> R)
    (name : string) (bodies : list (body * list (list R))) (t0 : R) (U0 p0 : vec) (mon : nsstate -> list fsop)
    (conv : boundary -> vec -> res vec) (vs ps : vec -> vec -> vec) (d : disk) : res (list (Z * list fsop)) :=
  do (IO, s0) <- ib_init m D P types values name bodies t0 (c_nstart conf) U0 p0;
  let d1 := run_ops (f_init_ops m conf) d in
  do (s1, w) <- io_initial_with s_ite (ib_write_solution m D IO) (ib_read_restart m D IO (n_forces m bodies)) conf s0 d1;
  Ok ((c_nstart conf, f_init_ops m conf ++ w) ::
      f_ops fuel s_ite conf (ib_advance m D P IO conv vs ps) (ib_write conf m D IO bodies mon) s1 (run_ops w d1)).

(** applications/decoupledibpm/main.cpp:39-75, as [d_main]. *)
Definition d_file_ops (fuel : nat) (conf : ioconf) (m : mesh) (D : dec) (P : nspar) (types : Z -> Z -> bctype) (values : Z -> Z -> R)
    (name : string) (bodies : list (body * list (list R))) (t0 : R) (U0 p0 : vec) (mon : dstate -> list fsop)
    (conv : boundary -> vec -> res vec) (vs ps fs : vec -> vec -> vec) (d : disk) : res (list (Z * list fsop)) :=
  do (OX, x0) <- d_init m D P types values name bodies t0 (c_nstart conf) U0 p0;
  let d1 := run_ops (f_init_ops m conf) d in
  do (x1, w) <- io_initial_with x_ite (d_write_solution m D) (d_read_restart m D (n_forces m bodies)) conf x0 d1;
  Ok ((c_nstart conf, f_init_ops m conf ++ w) ::
      f_ops fuel x_ite conf (d_advance m D P (fst OX) (snd OX) (n_forces m bodies) conv (d_assembleRHSForces m (snd OX)) vs ps fs)
        (d_write conf m D bodies mon) x1 (run_ops w d1)).

(** The same with moving bodies, as [r_main] (without the files of the bodies,
    which have names of their own: IbpmModel.v). *)
Definition r_file_ops (fuel : nat) (conf : ioconf) (m : mesh) (D : dec) (P : nspar) (types : Z -> Z -> bctype) (values : Z -> Z -> R)
    (name : string) (bodies : list (body * list (list R))) (mo : motion) (t0 : R) (U0 p0 : vec) (mon : rstate -> list fsop)
    (conv : boundary -> vec -> res vec) (vs ps : vec -> vec -> vec) (fs : mat -> vec -> vec -> vec) (d : disk) : res (list (Z * list fsop)) :=
  do (ops, s0) <- r_init m D P types values name bodies t0 (c_nstart conf) U0 p0;
  let d1 := run_ops (f_init_ops m conf) d in
  do (s1, w) <- io_initial_with r_ite (fun path s => d_write_solution m D path (r_x s)) (r_read_restart m D) conf s0 d1;
  Ok ((c_nstart conf, f_init_ops m conf ++ w) ::
      f_ops fuel r_ite conf (r_advance m D P ops name mo conv vs ps fs) (r_write_all conf m D mon) s1 (run_ops w d1)).
